(** Model of /repo/georegression/weight_model.py: constructor, fit and the two
    prediction methods.  (Importance, interaction, partial dependence and ICE:
    Inspect.v; ALE: Ale.v.) *)
From Verif.Model Require Import Base Ext Kernel Distance WeightMatrix Csr Neighbour.
Open Scope string_scope.
Open Scope nat_scope.
Open Scope R_scope.

(** A weight matrix: a 2-D NumPy array or a [csr_array]. *)
Inductive weights : Type :=
| WDense (m : matrix ext)
| WSparse (m : csr ext).
Inductive mask_matrix : Type :=
| MDense (m : matrix bool)
| MSparse (m : csr bool).

Definition ext_nonzero (x : ext) : bool := negb (eis_zero x).
Definition ext_positive (x : ext) : bool := egtb x (Fin 0).

(** [W > 0] (weight_model.py:358). *)
Definition positive_mask (w : weights) : mask_matrix :=
  match w with
  | WDense m => MDense (mmap ext_positive m)
  | WSparse m => MSparse (csr_where ext_positive m)
  end.

(** weight_model.py:350-356: set the diagonal to 0 in place; on a CSR matrix also
    drop all stored zeros. *)
Definition clear_diagonal (w : weights) : weights :=
  match w with
  | WDense m => WDense (fill_diagonal (Fin 0) m)
  | WSparse m => WSparse (eliminate_zeros eis_zero (remove_diagonal m))
  end.

(** [v[mask]] with a boolean mask: IndexError unless the lengths agree. *)
Definition mask_index {A} (mask : list bool) (v : list A) : result (list A) :=
  if (List.length mask =? List.length v)%nat then Ok (select mask v) else Raise IndexError.

(** [np.array_split(l, k)]: k parts, the first [len % k] one longer. *)
Fixpoint split_sizes {A} (sizes : list nat) (l : list A) : list (list A) :=
  match sizes with
  | [] => []
  | s :: ss => firstn s l :: split_sizes ss (skipn s l)
  end.
Definition array_split {A} (l : list A) (k : nat) : result (list (list A)) :=
  if (k =? 0)%nat then Raise ValueError
  else
    let n := List.length l in
    Ok (split_sizes (repeat (S (n / k)) (n mod k) ++ repeat (n / k)%nat (k - n mod k))%list l).

(** joblib's [Parallel]: the tasks are executed in the given order, each result
    goes to the slot of its task; the first exception (in execution order) is
    re-raised. *)
Definition parallel {A} (order : list nat) (tasks : list (result A)) : result (list A) :=
  slots <- fold_left (fun acc k =>
             slots <- acc ;; r <- nth k tasks (Raise IndexError) ;; Ok (list_set slots k (Some r)))
           order (Ok (repeat None (List.length tasks))) ;;
  mapM (fun s => match s with Some r => Ok r | None => Raise IndexError end) slots.

(** sklearn's [r2_score] for 1-D arrays ([len = 1] gives NaN). *)
Definition mean (l : list R) : R := Rsum l / INR (List.length l).
Definition r2_score (y_true y_pred : list R) : result ext :=
  if negb (List.length y_true =? List.length y_pred)%nat then Raise ValueError
  else match y_true with
  | [] => Raise ValueError
  | [_] => Ok NaN
  | _ =>
    let numerator := Rsum (map2 (fun a b => (a - b) * (a - b)) y_true y_pred) in
    let denominator := Rsum (map (fun a => (a - mean y_true) * (a - mean y_true)) y_true) in
    Ok (Fin (if Reqb denominator 0 then (if Reqb numerator 0 then 1 else 0)
             else 1 - numerator / denominator))
  end.

(** sklearn's [check_X_y] on finite data. *)
Definition check_X_y (X : matrix R) (y : list R) : result unit :=
  if negb (List.length X =? List.length y)%nat || (List.length X =? 0)%nat || (ncols X =? 0)%nat
     || negb (forallb (fun row => (List.length row =? ncols X)%nat) X)
  then Raise ValueError else Ok tt.

(** [np.array(local_predict).squeeze()] followed by its use in [r2_score]: a list
    of one-element predictions becomes a 1-D array; a single prediction becomes a
    0-d array, which [r2_score] rejects with TypeError; anything else ends in a
    ValueError (ragged, empty or two-dimensional array). *)
Definition squeeze (preds : list (list R)) : result (list R) :=
  v <- mapM (fun p => match p with [x] => Ok x | _ => Raise ValueError end) preds ;;
  match v with
  | [_] => Raise TypeError
  | _ => Ok v
  end.

(** How parallelism is requested. *)
Record jobs : Type := Jobs { j_n_jobs : option Z; j_n_patches : option nat }.

Section Model.
  (** A fitted local estimator; [fit_est c X y w] fits clone number [c] (its
      private randomness may depend on [c]); [predict_est e X] predicts a batch. *)
  Variable est : Type.
  Variable fit_est : nat -> matrix R -> list R -> list ext -> result est.
  Variable predict_est : est -> matrix R -> result (list R).

  (** NumPy's global generator: [np.random.choice(a, size, replace=False)]. *)
  Variable G : Type.
  Variable choice : G -> list nat -> nat -> G * list nat.

  (** [multiprocessing.cpu_count()]. *)
  Variable cpu_count : nat.

  (** weight_matrix_from_points(source, target, ...) with the constructor's
      arguments; [points_weights] below is the concrete one. *)
  Variable wm : filesystem -> list coords -> list coords -> filesystem * result weights.

  (** weight_model.py:21-40 [fit_local_estimator]. *)
  Definition fit_local_estimator (c : nat) (X : matrix R) (y : list R) (w : list ext) (x : list R)
             (return_estimator : bool) : result (list R * option est) :=
    e <- fit_est c X y w ;;
    p <- predict_est e [x] ;;
    Ok (p, if return_estimator then Some e else None).

  (** weight_model.py:100-111 (dense): the work for location [i]. *)
  Definition dense_task (X : matrix R) (y : list R) (estimators : list nat) (W : matrix ext)
             (X_predict : matrix R) (cache : bool) (i : nat) : result (list R * option est) :=
    c <- getitem estimators i ;;
    row <- getitem W i ;;
    let mask := map ext_nonzero row in
    x <- getitem X_predict i ;;
    Xs <- mask_index mask X ;;
    ys <- mask_index mask y ;;
    ws <- mask_index mask row ;;
    fit_local_estimator c Xs ys ws x cache.

  (** weight_model.py:131-146 and 154-169 (sparse): the rows are picked with the
      indices of [weight_matrix != 0], the sample weights are the stored values of
      [weight_matrix]. *)
  Definition sparse_task (X : matrix R) (y : list R) (estimators : list nat) (W : csr ext)
             (X_predict : matrix R) (cache : bool) (i : nat) : result (list R * option est) :=
    c <- getitem estimators i ;;
    getitem (c_indptr W) (S i) ;;;
    let idx := row_indices (csr_where ext_nonzero W) i in
    let ws := row_data W i in
    x <- getitem X_predict i ;;
    Xs <- take_checked X idx ;;
    ys <- take_checked y idx ;;
    fit_local_estimator c Xs ys ws x cache.

  (** Number of rows of a weight matrix. *)
  Definition w_nrows (w : weights) : nat :=
    match w with WDense m => List.length m | WSparse m => c_nrows m end.

  (** [list(zip( *parallel_result ))] unpacked into two: fails on an empty list. *)
  Definition unzip_jobs {A B} (l : list (A * B)) : result (list A * list B) :=
    match l with
    | [] => Raise ValueError
    | _ => Ok (map fst l, map snd l)
    end.

  (** weight_model.py:98-124: split the locations, run the batches, concatenate. *)
  Definition run_batches {A B} (order : list nat) (locs : list nat) (n_patches : nat) (task : nat -> result (A * B))
    : result (list A * list B) :=
    batches <- array_split locs n_patches ;;
    rs <- parallel order (map (fun b => r <- mapM task b ;; Ok (map fst r, map snd r)) batches) ;;
    Ok (List.concat (map fst rs), List.concat (map snd rs)).

  (** weight_model.py:43-191 [_fit].  [order] is the execution order of the
      parallel tasks. *)
  Definition fit_all (order : list nat) (X : matrix R) (y : list R) (estimators : list nat) (W : weights)
             (local_indices : option (list nat)) (cache : bool) (X_predict : option (matrix R)) (js : jobs)
    : result (list (list R) * list (option est)) :=
    match j_n_jobs js, j_n_patches js with
    | Some _, Some _ => Raise ValueError
    | n_jobs, n_patches =>
      let locs := match local_indices with Some l => l | None => seq 0 (w_nrows W) end in
      let Xp := match X_predict with Some x => x | None => X end in
      match n_jobs with
      | Some z =>
        if (z =? 0)%Z then Raise ValueError      (* joblib: n_jobs == 0 has no meaning *)
        else match W with
        | WDense m =>
          (* zip(local_indices, estimator_list, neighbour_matrix, weight_matrix, X_predict) *)
          let n := Nat.min (List.length locs)
                     (Nat.min (List.length estimators) (Nat.min (List.length m) (List.length Xp))) in
          rs <- parallel order (map (dense_task X y estimators m Xp cache) (seq 0 n)) ;;
          unzip_jobs rs
        | WSparse m =>
          rs <- parallel order (map (sparse_task X y estimators m Xp cache) locs) ;;
          unzip_jobs rs
        end
      | None =>
        let k := match n_patches with Some k => k | None => cpu_count end in
        match W with
        | WDense m => run_batches order locs k (dense_task X y estimators m Xp cache)
        | WSparse m => run_batches order locs k (sparse_task X y estimators m Xp cache)
        end
      end
    end.

  (** Constructor arguments used by fit (weight_model.py:244-280). *)
  Record config : Type := Config {
    leave_local_out : bool;
    sample_local_rate : option R;
    cache_data : bool;
    cache_estimator : bool;
    n_jobs : option Z;
    n_patches : option nat
  }.

  (** weight_model.py:268-271: without either, n_patches is the number of cores. *)
  Definition init_jobs (c : config) : jobs :=
    match n_jobs c, n_patches c with
    | None, None => Jobs None (Some cpu_count)
    | a, b => Jobs a b
    end.

  (** Attributes of a model object (weight_model.py:273-311). *)
  Record state : Type := State {
    is_fitted : option bool;
    n_features_in : option nat;
    n_obs : option nat;
    data_X : option (matrix R);
    data_y : option (list R);
    data_coords : option (list coords);
    weight_matrix_ : option weights;
    neighbour_matrix_ : option mask_matrix;
    local_indices_ : option (list nat);
    y_sample_ : option (list R);
    local_estimators : option (list (option est));
    local_predict_ : option (list R);
    llocv_score_ : option ext;
    local_residual_ : option (list R);
    permutation_score_decrease_ : option (matrix R);
    interaction_matrix_ : option (list (matrix R))
  }.

  Definition init_state : state :=
    State None None None None None None None None None None None None None None None None.

  (** Assignments of fit: weight_model.py:330-332. *)
  Definition set_shape (s : state) (p n : nat) : state :=
    State (Some true) (Some p) (Some n) (data_X s) (data_y s) (data_coords s) (weight_matrix_ s) (neighbour_matrix_ s) (local_indices_ s) (y_sample_ s) (local_estimators s) (local_predict_ s) (llocv_score_ s) (local_residual_ s) (permutation_score_decrease_ s) (interaction_matrix_ s).
  (** weight_model.py:339-341. *)
  Definition set_data (s : state) (X : matrix R) (y : list R) (v : option (list coords)) : state :=
    State (is_fitted s) (n_features_in s) (n_obs s) (Some X) (Some y) v (weight_matrix_ s) (neighbour_matrix_ s) (local_indices_ s) (y_sample_ s) (local_estimators s) (local_predict_ s) (llocv_score_ s) (local_residual_ s) (permutation_score_decrease_ s) (interaction_matrix_ s).
  (** weight_model.py:348, 358. *)
  Definition set_weights (s : state) (w : weights) : state :=
    State (is_fitted s) (n_features_in s) (n_obs s) (data_X s) (data_y s) (data_coords s) (Some w) (Some (positive_mask w)) (local_indices_ s) (y_sample_ s) (local_estimators s) (local_predict_ s) (llocv_score_ s) (local_residual_ s) (permutation_score_decrease_ s) (interaction_matrix_ s).
  (** weight_model.py:363-367. *)
  Definition set_locations (s : state) (l : list nat) (ys : list R) : state :=
    State (is_fitted s) (n_features_in s) (n_obs s) (data_X s) (data_y s) (data_coords s) (weight_matrix_ s) (neighbour_matrix_ s) (Some l) (Some ys) (local_estimators s) (local_predict_ s) (llocv_score_ s) (local_residual_ s) (permutation_score_decrease_ s) (interaction_matrix_ s).
  (** weight_model.py:374 (the predictions before [squeeze] are not recorded). *)
  Definition set_estimators (s : state) (es : list (option est)) : state :=
    State (is_fitted s) (n_features_in s) (n_obs s) (data_X s) (data_y s) (data_coords s) (weight_matrix_ s) (neighbour_matrix_ s) (local_indices_ s) (y_sample_ s) (Some es) (local_predict_ s) (llocv_score_ s) (local_residual_ s) (permutation_score_decrease_ s) (interaction_matrix_ s).
  (** weight_model.py:378-382. *)
  Definition set_scores (s : state) (p : list R) (score : ext) (residual : list R) : state :=
    State (is_fitted s) (n_features_in s) (n_obs s) (data_X s) (data_y s) (data_coords s) (weight_matrix_ s) (neighbour_matrix_ s) (local_indices_ s) (y_sample_ s) (local_estimators s) (Some p) (Some score) (Some residual) (permutation_score_decrease_ s) (interaction_matrix_ s).

  (** What a call leaves behind: the object, the caller's weight matrix object,
      the global generator, the file system, and the outcome. *)
  Record outcome : Type := Outcome {
    o_state : state;
    o_weights : option weights;
    o_gen : G;
    o_fs : filesystem;
    o_result : result unit
  }.

  (** weight_model.py:362-366: [int(rate * N)] draws, sorted ([int] truncates
      towards zero). *)
  Definition trunc (x : R) : Z := if Rltb x 0 then Rceil x else Rfloor x.
  Definition sample_locations (g : G) (rate : option R) (n : nat) : result (G * list nat) :=
    match rate with
    | Some r => x <- draw G choice g (seq 0 n) (trunc (r * INR n)) ;; Ok (fst x, sort_nat (snd x))
    | None => Ok (g, seq 0 n)
    end.

  (** weight_model.py:314-384 [fit].  The stages update the object one after the
      other; an exception leaves the object as it is at that point. *)
  Definition fit (c : config) (order : list nat) (g : G) (fs : filesystem) (s0 : state)
             (X : matrix R) (y : list R) (coords : option (list coords)) (W : option weights) : outcome :=
    match check_X_y X y with
    | Raise e => Outcome s0 W g fs (Raise e)
    | Ok _ =>
      let N := List.length X in
      let s1 := set_shape s0 (ncols X) N in
      match coords, W with
      | None, None =>
        Outcome s1 W g fs (Raise (PyException "At least one of coordinate_vector_list or weight_matrix should be provided"))
      | _, _ =>
        let s2 := if cache_data c then set_data s1 X y coords else s1 in
        (* 343-345 *)
        let '(fs', w) := match W, coords with
                         | Some w, _ => (fs, Ok w)
                         | None, Some v => wm fs v v
                         | None, None => (fs, Raise TypeError)
                         end in
        match w with
        | Raise e => Outcome s2 W g fs' (Raise e)
        | Ok w =>
          (* 348-358; the caller's object is the one modified *)
          let w' := if leave_local_out c then clear_diagonal w else w in
          let W' := match W with Some _ => Some w' | None => None end in
          let s3 := set_weights s2 w' in
          match sample_locations g (sample_local_rate c) N with
          | Raise e => Outcome s3 W' g fs' (Raise e)
          | Ok (g', locs) =>
            (* 362-367 *)
            let ys := take 0 y locs in
            let s4 := set_locations s3 locs ys in
            (* 370-377: N clones *)
            match fit_all order X y (seq 0 N) w' (Some locs) (cache_estimator c) None (init_jobs c) with
            | Raise e => Outcome s4 W' g' fs' (Raise e)
            | Ok (preds, es) =>
              let s5 := set_estimators s4 es in
              match (p <- squeeze preds ;; score <- r2_score ys p ;; Ok (p, score)) with
              | Raise e => Outcome s5 W' g' fs' (Raise e)
              | Ok (p, score) => Outcome (set_scores s5 p score (map2 Rminus ys p)) W' g' fs' (Ok tt)
              end
            end
          end
        end
      end
    end.

  (** [bool(weight_matrix)] as the guards in predict_by_weight and predict_by_fit
      evaluate it (weight_model.py:408, 447): an array with more than one element
      raises ValueError (also a CSR matrix that is not 1x1). *)
  Definition truth_value (w : weights) : result bool :=
    match w with
    | WDense [[x]] => Ok (ext_nonzero x)
    | WDense m => if (List.length (List.concat m) =? 0)%nat then Ok false else Raise ValueError
    | WSparse m => if ((c_nrows m =? 1) && (c_ncols m =? 1))%nat then Ok (negb (List.length (c_data m) =? 0)%nat)
                   else Raise ValueError
    end.

  (** The guard [coordinate_vector_list is None and weight_matrix]. *)
  Definition guard_weights (coords : option (list coords)) (W : option weights) : result unit :=
    match coords, W with
    | None, Some w =>
      b <- truth_value w ;;
      if b then Raise (PyException "At least one of coordinate_vector_list or weight_matrix should be provided") else Ok tt
    | _, _ => Ok tt
    end.

  (** Broadcasting of two 2-D arrays under an operation. *)
  Definition bc_dim (a b : nat) : option nat :=
    if (a =? b)%nat then Some a else if (a =? 1)%nat then Some b else if (b =? 1)%nat then Some a else None.
  Definition bc_index (n i : nat) : nat := if (n =? 1)%nat then 0%nat else i.
  Definition broadcast2 {A B C} (dA : A) (dB : B) (f : A -> B -> C) (ra ca rb cb : nat) (a : matrix A) (b : matrix B)
    : result (matrix C) :=
    match bc_dim ra rb, bc_dim ca cb with
    | Some r, Some c =>
      Ok (mtab r c (fun i j => f (mget dA a (bc_index ra i) (bc_index ca j)) (mget dB b (bc_index rb i) (bc_index cb j))))
    | _, _ => Raise ValueError
    end.

  (** The dense form of a CSR matrix; entries stored twice add up. *)
  Definition csr_toarray (m : csr ext) : matrix ext :=
    mtab (c_nrows m) (c_ncols m) (fun i j =>
      esum (map snd (filter (fun e => (fst e =? j)%nat) (combine (row_indices m i) (row_data m i))))).

  (** [weight_matrix * local_predict.T] (weight_model.py:425).  [*] on a csr_array
      is the element-wise product with the broadcasting rules of NumPy; entries
      that are not stored stay zero, which they also are in the dense product
      because the predictions are finite. *)
  Definition w_multiply (w : weights) (rb cb : nat) (b : matrix R) : result (matrix ext) :=
    match w with
    | WDense m => broadcast2 NaN 0 (fun a p => emul a (Fin p)) (List.length m) (ncols m) rb cb m b
    | WSparse m => broadcast2 NaN 0 (fun a p => emul a (Fin p)) (c_nrows m) (c_ncols m) rb cb (csr_toarray m) b
    end.

  (** weight_model.py:386-425 [predict_by_weight] (search_optimal is not
      modelled, it has no effect). *)
  Definition predict_by_weight (c : config) (fs : filesystem) (s : state) (X : matrix R)
             (coords : option (list coords)) (W : option weights) : filesystem * result (list ext) :=
    if negb (cache_data c) || negb (cache_estimator c)
    then (fs, Raise (PyException "Prediction by weight need cache_data and cache_estimator set True"))
    else match guard_weights coords W with
    | Raise e => (fs, Raise e)
    | Ok _ =>
      match (match local_estimators s with
             | None => Raise TypeError
             | Some es => mapM (fun e => match e with Some e => predict_est e X | None => Raise AttributeError end) es
             end) with
      | Raise e => (fs, Raise e)
      | Ok preds =>
        (* np.vstack: needs at least one row, all of one length *)
        if (List.length preds =? 0)%nat || negb (forallb (fun p => (List.length p =? ncols preds)%nat) preds)
        then (fs, Raise ValueError)
        else
          let '(fs', w) := match W with
                           | Some w => (fs, Ok w)
                           | None => match coords, data_coords s with
                                     | Some v, Some t => wm fs v t
                                     | _, _ => (fs, Raise TypeError)
                                     end
                           end in
          match w with
          | Raise e => (fs', Raise e)
          | Ok w =>
            (fs', prod <- w_multiply w (ncols preds) (List.length preds) (transpose 0 (ncols preds) preds) ;;
                  Ok (map esum prod))
          end
      end
    end.

  (** weight_model.py:455 [weight_matrix.T.copy()], together with the locations
      [range(weight_matrix.shape[0])] that [_fit] then iterates over (None: the
      rows of the returned object).  The transpose of a csr_array is a csc_array
      with the same data, indices and indptr; [_fit] reads only these three arrays
      and [shape[0]], the number of columns of the original. *)
  Definition w_transpose (w : weights) : weights * option (list nat) :=
    match w with
    | WDense m => (WDense (transpose NaN (ncols m) m), None)
    | WSparse m => (WSparse m, Some (seq 0 (c_ncols m)))
    end.

  (** weight_model.py:427-467 [predict_by_fit]. *)

  Definition predict_by_fit (c : config) (order : list nat) (fs : filesystem) (s : state) (X : matrix R)
             (coords : option (list coords)) (W : option weights) : filesystem * result (list (list R)) :=
    if negb (cache_data c)
    then (fs, Raise (PyException "Prediction by fit need cache_data set True"))
    else match guard_weights coords W with
    | Raise e => (fs, Raise e)
    | Ok _ =>
      let '(fs', w) := match W with
                       | Some w => (fs, Ok (w, None))
                       | None => match data_coords s, coords with
                                 | Some t, Some v =>
                                   let '(fs', r) := wm fs t v in (fs', w <- r ;; Ok (w_transpose w))
                                 | _, _ => (fs, Raise TypeError)
                                 end
                       end in
      match w with
      | Raise e => (fs', Raise e)
      | Ok (w, locs) =>
        (fs', match data_X s, data_y s with
              | Some tX, Some ty =>
                r <- fit_all order tX ty (seq 0 (List.length X)) w locs false (Some X) (Jobs None None) ;; Ok (fst r)
              | _, _ => Raise TypeError
              end)
      end
    end.
End Model.

(** The weight matrix of the model's constructor arguments (weight_model.py:344,
    420, 454: weight_matrix_from_points).  With truthy [distance_args] the
    dask path returns a CSR matrix. *)
Record wm_args : Type := WmArgs {
  a_measure : scalar_or_list string;
  a_kernel : dim_arg string;
  a_ratio : ratio_arg;
  a_bandwidth : dim_arg R;
  a_count : dim_arg count_arg
}.

(** CSR matrix of a dense one: the entries that are not zero. *)
Definition csr_of_dense (m : matrix ext) : csr ext :=
  csr_of_rows (ncols m)
    (map (fun row => filter (fun e => ext_nonzero (snd e)) (mapi (fun j v => (j, v)) row)) m).

Section Points.
  Variable f32 : R -> R.
  Variable mkw : Type.
  Variable no_kw : mkw.
  Variable scipy_metric : string -> option (mkw -> list R -> list R -> R).
  Variable dask_metric : string -> option (list R -> list R -> R).
  Variable sort_row : list R -> list R.
  Variable dargs : Type.
  Variable truthy : dargs -> bool.

  Definition points_weights (a : wm_args) (distance_args : option dargs) (fs : filesystem)
             (source target : list coords) : filesystem * result weights :=
    let '(fs', r) := weight_matrix_from_points f32 mkw no_kw scipy_metric dask_metric sort_row dargs truthy
                       fs source (Some target) (a_measure a) (a_kernel a) (a_ratio a) (a_bandwidth a) (a_count a)
                       distance_args in
    (fs', w <- r ;;
          Ok (if (match distance_args with Some d => truthy d | None => false end)
              then WSparse (csr_of_dense w) else WDense w)).
End Points.
