(** Model of /repo/georegression/stacking_model.py.  Weights are finite reals
    here (NaN weights are not modelled), CSR matrices have no duplicate entries. *)
From Verif.Model Require Import Base Ext Csr Neighbour Distance WeightModel NumbaImpl.
Open Scope string_scope.
Open Scope nat_scope.
Open Scope R_scope.

(** A weight matrix: a 2-D array or a [csr_array]. *)
Inductive swts : Type :=
| SDense (m : matrix R)
| SSparse (m : csr R).

(** The second-order neighbour matrix (booleans, or a CSR matrix of ones). *)
Inductive second_matrix : Type :=
| S2Dense (m : matrix bool)
| S2Sparse (m : csr nat).

(** X_meta_T: row j holds the predictions of base learner j. *)
Inductive meta_matrix : Type :=
| XDense (m : matrix R)
| XSparse (m : csr R).

Definition R_is_zero (x : R) : bool := Reqb x 0.

(** [csr_array(m.T)] (and [m.getH().tocsr()] of a real matrix). *)
Definition csr_transpose {A} (m : csr A) : csr A :=
  csr_of_rows (c_nrows m)
    (tabulate (c_ncols m) (fun j =>
       List.concat (mapi (fun i r => map (fun e => (i, snd e)) (filter (fun e => (fst e =? j)%nat) r)) (csr_rows m)))).

(** [m[[i], idx]] on a CSR matrix: stored values, 0 elsewhere. *)
Definition csr_get (m : csr R) (i j : nat) : R :=
  match find (fun e => (fst e =? j)%nat) (combine (row_indices m i) (row_data m i)) with
  | Some e => snd e
  | None => 0
  end.
Definition csr_take (m : csr R) (i : nat) (idx : list nat) : result (list R) :=
  if (c_nrows m <=? i)%nat || negb (forallb (fun j => (j <? c_ncols m)%nat) idx) then Raise IndexError
  else Ok (map (csr_get m i) idx).

(** stacking_model.py:296-300: transpose of the sampled leave-out matrix. *)
Definition transpose_mask (L : mask_matrix) : mask_matrix :=
  match L with
  | MDense m => MDense (transpose false (ncols m) m)
  | MSparse m => MSparse (csr_transpose m)
  end.

(** stacking_model.py:305-311: a copy of the weights, set to 0 where the
    transposed leave-out matrix is true; stored zeros are dropped.  (The two
    matrices are of the same kind; the other cases do not occur.) *)
Definition zero_leave_out (L : mask_matrix) (w : swts) : swts :=
  match L, w with
  | MDense l, SDense m => SDense (map2 (map2 (fun (b : bool) v => if b then 0 else v)) l m)
  | MSparse l, SSparse m =>
    SSparse (csr_of_rows (c_ncols m)
      (mapi (fun i r => filter (fun e => negb (existsb (Nat.eqb (fst e)) (row_indices l i)) && Rnonzero (snd e)) r) (csr_rows m)))
  | _, w => w
  end.

(** stacking_model.py:313-319. *)
Definition clear_diag (w : swts) : swts :=
  match w with
  | SDense m => SDense (fill_diagonal 0 m)
  | SSparse m => SSparse (eliminate_zeros R_is_zero (remove_diagonal m))
  end.

(** stacking_model.py:344-345: [neighbour_shrink(weight_matrix, rate, True)], in
    place: the matrix afterwards and the outcome. *)
Definition shrink_w (order : list nat) (rate : option R) (w : swts) : swts * result unit :=
  match rate, w with
  | None, _ => (w, Ok tt)
  | Some q, SDense m => let '(m', r) := neighbour_shrink order m q true true in (SDense m', r ;;; Ok tt)
  | Some q, SSparse m => let '(m', r) := neighbour_shrink_csr order m q true true in (SSparse m', r ;;; Ok tt)
  end.

(** stacking_model.py:354, [weight_matrix > 0]. *)
Definition positive_w (w : swts) : mask_matrix :=
  match w with
  | SDense m => MDense (mmap positive m)
  | SSparse m => MSparse (csr_where positive m)
  end.

(** stacking_model.py:359-361. *)
Definition second_w (order : list nat) (buffer : matrix bool) (neighbour L : mask_matrix) : result second_matrix :=
  match neighbour, L with
  | MDense m, MDense l => Ok (S2Dense (second_order_neighbour order buffer m (Some l)))
  | MSparse m, MSparse l => c <- second_order_neighbour_csr order m l ;; Ok (S2Sparse c)
  | _, _ => Raise TypeError
  end.

(** stacking_model.py:365-371. *)
Definition clear_mask_diag (m : mask_matrix) : mask_matrix :=
  match m with
  | MDense m => MDense (fill_diagonal false m)
  | MSparse m => MSparse (remove_diagonal m)
  end.

(** [np.zeros(n)[:] = vals] from the left (stacking_model.py:568, 573-589). *)
Definition fill_left (n : nat) (vals : list R) : list R := firstn n (vals ++ repeat 0 n)%list.

(** Position of the first element equal to [i], else of the last element
    (stacking_model.py:620-623). *)
Fixpoint break_index (i : nat) (l : list nat) : nat :=
  match l with
  | [] => 0%nat
  | x :: xs => if (x =? i)%nat then 0%nat else match xs with [] => 0%nat | _ => S (break_index i xs) end
  end.

(** All random and concurrent choices of one call: execution orders of the
    parallel loops, and the uninitialised arrays. *)
Record runtime : Type := Runtime {
  r_sample : list nat;              (* shrinking inside sample_neighbour *)
  r_shrink : list nat;              (* meta_fitting_shrink *)
  r_second : list nat;              (* second_order_neighbour *)
  r_buffer : matrix bool;           (* np.empty there *)
  r_base : list nat;                (* joblib batches *)
  r_garbage : R                     (* read through an unset loop variable in numba *)
}.

(** Constructor arguments (stacking_model.py:168-228); [cache_estimator] is an
    attribute that fit changes, see [sstate]. *)
Record sconfig : Type := SConfig {
  sc_leave_local_out : bool;
  sc_sample_local_rate : option R;
  sc_cache_data : bool;
  sc_n_jobs : option Z;
  sc_n_patches : option nat;
  sc_alpha : R;
  sc_leave_out_rate : option R;
  sc_leave_out_shrink : option R;
  sc_meta_shrink : option R;
  sc_estimator_rate : option R;
  sc_use_numba : bool
}.

Section Stacking.
  Variable est : Type.
  Variable fit_est : nat -> matrix R -> list R -> list R -> result est.
  Variable predict_est : est -> matrix R -> result (list R).

  (** sklearn's Ridge(alpha, solver="lsqr"): fit on an array with the given
      number of columns, and predict. *)
  Variable meta : Type.
  Variable fit_meta : R -> nat -> matrix R -> list R -> list R -> result meta.
  Variable predict_meta : meta -> matrix R -> result (list R).
  Variable solve : matrix R -> list R -> result (list R).

  Variable G : Type.
  Variable seed0 : G.
  Variable choice : G -> list nat -> nat -> G * list nat.
  Variable cpu_count : nat.

  (** weight_matrix_from_points with the constructor's arguments. *)
  Variable wm : filesystem -> list coords -> list coords -> filesystem * result swts.

  (** stacking_model.py:26-45 [_fit_local_estimator]. *)
  Definition fit_base (i : nat) (X : matrix R) (y w : list R) (X2 : matrix R) (x : list R)
    : result ((list R * list R) * est) :=
    e <- fit_est i X y w ;;
    p <- predict_est e [x] ;;
    q <- predict_est e X2 ;;
    Ok ((p, q), e).

  (** stacking_model.py:82-100, one iteration. *)
  Definition base_task_dense (X : matrix R) (y : list R) (W : matrix R) (second : matrix bool) (i : nat)
    : result ((list R * list R) * est) :=
    row <- getitem W i ;;
    let mask := map Rnonzero row in
    x <- getitem X i ;;
    Xs <- mask_index mask X ;;
    ys <- mask_index mask y ;;
    ws <- mask_index mask row ;;
    srow <- getitem second i ;;
    X2 <- mask_index srow X ;;
    fit_base i Xs ys ws X2 x.

  (** stacking_model.py:103-128, one iteration. *)
  Definition base_task_sparse (X : matrix R) (y : list R) (W : csr R) (second : csr nat) (i : nat)
    : result ((list R * list R) * est) :=
    getitem (c_indptr W) (S i) ;;;
    getitem (c_indptr second) (S i) ;;;
    let idx := row_indices (csr_where Rnonzero W) i in
    let ws := row_data W i in
    x <- getitem X i ;;
    Xs <- take_checked X idx ;;
    ys <- take_checked y idx ;;
    X2 <- take_checked X (row_indices second i) ;;
    fit_base i Xs ys ws X2 x.

  (** stacking_model.py:145-147: row i of X_meta_T.  (NumPy would broadcast a
      single prediction over several rows; not modelled.) *)
  Definition meta_row (n : nat) (mask : list bool) (q : list R) : result (list R) :=
    if (List.length q =? count_true mask)%nat then Ok (put (repeat 0 n) (nonzero mask) q) else Raise ValueError.

  (** stacking_model.py:47-165 [_fit]: predictions, X_meta_T and base estimators. *)
  Definition fit_bases (order : list nat) (X : matrix R) (y : list R) (W : swts) (second : second_matrix)
             (n_patches : option nat) : result (list (list R) * meta_matrix * list est) :=
    match n_patches with
    | None => Raise TypeError                              (* np.array_split(..., None) *)
    | Some k =>
      match W, second with
      | SDense m, S2Dense s =>
        r <- run_batches order (seq 0 (List.length m)) k (base_task_dense X y m s) ;;
        rows <- mapM (fun e => meta_row (List.length m) (fst e) (snd e)) (combine s (map snd (fst r))) ;;
        Ok (map fst (fst r), XDense rows, snd r)
      | SSparse m, S2Sparse s =>
        r <- run_batches order (seq 0 (c_nrows m)) k (base_task_sparse X y m s) ;;
        let data := List.concat (map snd (fst r)) in
        if negb (List.length data =? List.length (c_indices s))%nat then Raise ValueError
        else c <- csr_infer data (c_indices s) (c_indptr s) ;; Ok (map fst (fst r), XSparse c, snd r)
      | _, _ => Raise TypeError
      end
    end.

  (** A meta estimator: a fitted Ridge, or one given by coefficients and intercept. *)
  Inductive meta_model : Type :=
  | MFitted (m : meta)
  | MLinear (coef : list R) (intercept : ext).

  (** stacking_model.py:1127-1130 [StackingEstimator]. *)
  Record stacking_estimator : Type := StackingEstimator {
    se_meta : meta_model;
    se_bases : list est
  }.

  (** [Ridge.predict]. *)
  Definition predict_model (m : meta_model) (X : matrix R) : result (list ext) :=
    match m with
    | MFitted m => p <- predict_meta m X ;; Ok (map Fin p)
    | MLinear coef b => Ok (map (fun row => eadd (Fin (dot row coef)) b) X)
    end.

  (** stacking_model.py:1132-1135 [StackingEstimator.predict]: the base
      predictions as columns. *)
  Definition predict_stacking (s : stacking_estimator) (X : matrix R) : result (list ext) :=
    cols <- mapM (fun e => predict_est e X) (se_bases s) ;;
    if (List.length cols =? 0)%nat || negb (forallb (fun c => (List.length c =? ncols cols)%nat) cols) then Raise ValueError
    else predict_model (se_meta s) (transpose 0 (ncols cols) cols).

  (** stacking_model.py:425-437: the base estimators of meta estimator [i] when
      estimator_sample_rate is given.  [neighbour_sample[i]] is a single boolean,
      whose [np.nonzero] (NumPy 1.x) is [0] or empty. *)
  Definition sample_estimators (g : G) (rate : option R) (n i : nat) (sample : list bool) : result (G * list bool) :=
    match rate with
    | None => Ok (g, sample)
    | Some r =>
      b <- getitem sample i ;;
      let indexes := nonzero [b] in
      d <- draw G choice g indexes (Rceil (INR (List.length indexes) * r)) ;;
      Ok (fst d, put (repeat false n) (snd d) (map (fun _ => true) (snd d)))
    end.

  (** stacking_model.py:411-460, one iteration of the dense loop.  [L] is the
      sampled matrix before transposition, so that row i is the column read at 421. *)
  Definition meta_task_dense (alpha : R) (rate : option R) (y : list R) (W : matrix R) (neighbour L : matrix bool)
             (XT : matrix R) (es : list est) (g : G) (i : nat) : result (G * (list R * stacking_estimator)) :=
    d <- sample_estimators g rate (List.length XT) i (nth i L []) ;;
    let sample := snd d in
    let nb := nth i neighbour [] in
    let columns := nonzero sample in
    let X_fit := map (fun k => map (fun j => mget 0 XT j k) columns) (nonzero nb) in
    let y_fit := take 0 y (nonzero nb) in
    let w_fit := take 0 (nth i W []) (nonzero nb) in
    m <- fit_meta alpha (List.length columns) X_fit y_fit w_fit ;;
    p <- predict_meta m [map (fun j => mget 0 XT j i) columns] ;;
    Ok (fst d, (p, StackingEstimator (MFitted m) (select sample es))).

  (** stacking_model.py:470-515, one iteration of the CSR loop. *)
  Definition meta_task_sparse (alpha : R) (y : list R) (W : csr R) (neighbour L : csr bool)
             (XT : csr R) (es : list est) (g : G) (i : nat) : result (G * (list R * stacking_estimator)) :=
    let lo := row_indices L i in
    let nb := row_indices neighbour i in
    X_fit_T <- mapM (fun j => csr_take XT j nb) lo ;;
    y_fit <- take_checked y nb ;;
    w_fit <- csr_take W i nb ;;
    m <- fit_meta alpha (List.length lo) (transpose 0 (List.length nb) X_fit_T) y_fit w_fit ;;
    x <- csr_take (csr_transpose XT) i lo ;;
    p <- predict_meta m [x] ;;
    bases <- take_checked es lo ;;
    Ok (g, (p, StackingEstimator (MFitted m) bases)).

  (** stacking_model.py:551-634, one iteration of the numba loop. *)
  Definition meta_task_numba (alpha garbage : R) (y : list R) (W : csr R) (neighbour L : csr bool)
             (XT : csr R) (i : nat) : result (list R * ext * ext * R) :=
    let lo := row_indices L i in
    let nb := filter (fun k => negb (k =? i)%nat) (row_indices neighbour i) in
    let X_fit_T := map (fun j =>
        fill_left (List.length nb)
          (map snd (filter (fun e => existsb (Nat.eqb (fst e)) nb) (combine (row_indices XT j) (row_data XT j))))) lo in
    let X_fit := transpose 0 (List.length nb) X_fit_T in
    let y_fit := take 0 y nb in
    let w_fit := map snd (filter (fun e => negb (fst e =? i)%nat) (combine (row_indices W i) (row_data W i))) in
    r <- ridge_cholesky solve (List.length lo) X_fit y_fit alpha w_fit ;;
    let '(coef, intercept) := r in
    let score := match intercept with
                 | Fin b => r2_numba y_fit (map (fun row => dot row coef + b) X_fit)
                 | _ => 1
                 end in
    let x := map (fun j => nth (break_index i (row_indices XT j)) (row_data XT j) garbage) lo in
    Ok (coef, intercept, eadd (Fin (dot x coef)) intercept, score).

  (** The sequential loop over the observations, threading the generator. *)
  Fixpoint meta_loop {A} (task : G -> nat -> result (G * A)) (g : G) (is : list nat) : result (G * list A) :=
    match is with
    | [] => Ok (g, [])
    | i :: rest =>
      a <- task g i ;; b <- meta_loop task (fst a) rest ;; Ok (fst b, snd a :: snd b)
    end.

  (** Elements of local_estimator_list: base estimators during fit, stacking
      estimators afterwards. *)
  Inductive local_list : Type :=
  | LBase (l : list est)
  | LStacking (l : list stacking_estimator).

  (** Attributes of a stacking model object. *)
  Record sstate : Type := SState {
    ss_is_fitted : option bool;
    ss_n_features : option nat;
    ss_n : option nat;
    ss_X : option (matrix R);
    ss_y : option (list R);
    ss_cache_estimator : bool;
    ss_weight_matrix : option swts;
    ss_neighbour_matrix : option mask_matrix;
    ss_local_indices : option (list nat);
    ss_y_sample : option (list R);
    ss_local_predict : option (list (list R));
    ss_llocv_score : option ext;
    ss_local_residual : option (matrix R);
    ss_base_list : option (list est);
    ss_local_list : option local_list;
    ss_stacking_predict : option (list R);
    ss_llocv_stacking : option ext;
    ss_stacking_scores : option (list R)
  }.

  (** Assignments: stacking_model.py:248-263. *)
  Definition ss_start (s : sstate) (p n : nat) (data : option (matrix R * list R)) (cache : bool) : sstate :=
    SState (Some true) (Some p) (Some n)
      (match data with Some d => Some (fst d) | None => ss_X s end)
      (match data with Some d => Some (snd d) | None => ss_y s end) cache
      (ss_weight_matrix s) (ss_neighbour_matrix s) (ss_local_indices s) (ss_y_sample s) (ss_local_predict s)
      (ss_llocv_score s) (ss_local_residual s) (ss_base_list s) (ss_local_list s) (ss_stacking_predict s)
      (ss_llocv_stacking s) (ss_stacking_scores s).
  (** stacking_model.py:278-279 (only when the weights were computed here), and
      the same object after the in-place shrinking at 345. *)
  Definition ss_set_weights (s : sstate) (w : option swts) (nb : option mask_matrix) : sstate :=
    SState (ss_is_fitted s) (ss_n_features s) (ss_n s) (ss_X s) (ss_y s) (ss_cache_estimator s) w nb
      (ss_local_indices s) (ss_y_sample s) (ss_local_predict s) (ss_llocv_score s) (ss_local_residual s)
      (ss_base_list s) (ss_local_list s) (ss_stacking_predict s) (ss_llocv_stacking s) (ss_stacking_scores s).
  (** stacking_model.py:321-325. *)
  Definition ss_set_locations (s : sstate) (l : list nat) (ys : list R) : sstate :=
    SState (ss_is_fitted s) (ss_n_features s) (ss_n s) (ss_X s) (ss_y s) (ss_cache_estimator s) (ss_weight_matrix s)
      (ss_neighbour_matrix s) (Some l) (Some ys) (ss_local_predict s) (ss_llocv_score s) (ss_local_residual s)
      (ss_base_list s) (ss_local_list s) (ss_stacking_predict s) (ss_llocv_stacking s) (ss_stacking_scores s).
  (** stacking_model.py:391-392. *)
  Definition ss_set_base (s : sstate) (preds : list (list R)) (es : list est) : sstate :=
    SState (ss_is_fitted s) (ss_n_features s) (ss_n s) (ss_X s) (ss_y s) (ss_cache_estimator s) (ss_weight_matrix s)
      (ss_neighbour_matrix s) (ss_local_indices s) (ss_y_sample s) (Some preds) (ss_llocv_score s) (ss_local_residual s)
      (ss_base_list s) (Some (LBase es)) (ss_stacking_predict s) (ss_llocv_stacking s) (ss_stacking_scores s).
  (** stacking_model.py:394-399. *)
  Definition ss_set_scores (s : sstate) (score : ext) (residual : matrix R) (cache : bool) (es : list est) : sstate :=
    SState (ss_is_fitted s) (ss_n_features s) (ss_n s) (ss_X s) (ss_y s) cache (ss_weight_matrix s)
      (ss_neighbour_matrix s) (ss_local_indices s) (ss_y_sample s) (ss_local_predict s) (Some score) (Some residual)
      (Some es) None (ss_stacking_predict s) (ss_llocv_stacking s) (ss_stacking_scores s).
  (** stacking_model.py:465-467, 520-522, 657-679. *)
  Definition ss_set_stacking (s : sstate) (p : list R) (score : ext) (scores : option (list R)) (l : list stacking_estimator) : sstate :=
    SState (ss_is_fitted s) (ss_n_features s) (ss_n s) (ss_X s) (ss_y s) (ss_cache_estimator s) (ss_weight_matrix s)
      (ss_neighbour_matrix s) (ss_local_indices s) (ss_y_sample s) (ss_local_predict s) (ss_llocv_score s)
      (ss_local_residual s) (ss_base_list s) (Some (LStacking l)) (Some p) (Some score)
      (match scores with Some q => Some q | None => ss_stacking_scores s end).

  Record soutcome : Type := SOutcome {
    so_state : sstate;
    so_weights : option swts;      (* the caller's weight matrix object *)
    so_gen : G;
    so_fs : filesystem;
    so_result : result unit
  }.

  (** [self.n_patches] (weight_model.py:268-271). *)
  Definition patches (c : sconfig) : option nat :=
    match sc_n_jobs c, sc_n_patches c with
    | None, None => Some cpu_count
    | _, k => k
    end.

  (** stacking_model.py:284-300: the leave-out matrix before transposition. *)
  Definition leave_out_sample (r : runtime) (c : sconfig) (g : G) (w : swts) : result (G * mask_matrix) :=
    match sc_leave_out_rate c with
    | None => Raise AttributeError                 (* None.nonzero() at 306 *)
    | Some rate =>
      match w with
      | SDense m => d <- sample_neighbour G seed0 choice (r_sample r) g m rate (sc_leave_out_shrink c) ;; Ok (fst d, MDense (snd d))
      | SSparse m => d <- sample_neighbour_csr G seed0 choice (r_sample r) g m rate (sc_leave_out_shrink c) ;; Ok (fst d, MSparse (snd d))
      end
    end.

  (** List of one-element arrays as r2_score sees it. *)
  Definition one_each (preds : list (list R)) : result (list R) :=
    mapM (fun p => match p with [x] => Ok x | _ => Raise ValueError end) preds.

  (** stacking_model.py:404-679: the meta learners. *)
  Definition fit_metas (r : runtime) (c : sconfig) (g : G) (n : nat) (y : list R) (w : swts)
             (neighbour L : mask_matrix) (XT : meta_matrix) (es : list est)
    : result (G * (list R * option (list R) * list stacking_estimator)) :=
    if sc_use_numba c then
      match w, neighbour, L, XT with
      | SSparse m, MSparse nb, MSparse l, XSparse x =>
        rs <- mapM (meta_task_numba (sc_alpha c) (r_garbage r) y m nb l x) (seq 0 n) ;;
        ps <- mapM (fun e => match snd (fst e) with Fin v => Ok v | _ => Raise ValueError end) rs ;;
        ses <- mapM (fun i => bs <- take_checked es (row_indices l i) ;;
                              e <- getitem rs i ;;
                              Ok (StackingEstimator (MLinear (fst (fst (fst e))) (snd (fst (fst e)))) bs)) (seq 0 n) ;;
        Ok (g, (ps, Some (map snd rs), ses))
      | _, _, _, _ => Raise (PyException "Currently, Numba not support ndarray weight matrix.")
      end
    else
      match w, neighbour, L, XT with
      | SDense m, MDense nb, MDense l, XDense x =>
        d <- meta_loop (meta_task_dense (sc_alpha c) (sc_estimator_rate c) y m nb l x es) g (seq 0 n) ;;
        ps <- one_each (map fst (snd d)) ;;
        Ok (fst d, (ps, None, map snd (snd d)))
      | SSparse m, MSparse nb, MSparse l, XSparse x =>
        d <- meta_loop (meta_task_sparse (sc_alpha c) y m nb l x es) g (seq 0 n) ;;
        ps <- one_each (map fst (snd d)) ;;
        Ok (fst d, (ps, None, map snd (snd d)))
      | _, _, _, _ => Raise TypeError
      end.

  (** stacking_model.py:231-692 [fit].  When the meta learners fail the draws made
      in that stage and stacking_predict_ are not recorded. *)
  Definition sfit (r : runtime) (c : sconfig) (g : G) (fs : filesystem) (s0 : sstate)
             (X : matrix R) (y : list R) (coords : option (list coords)) (W : option swts) : soutcome :=
    match check_X_y X y with
    | Raise e => SOutcome s0 W g fs (Raise e)
    | Ok _ =>
      let n := List.length X in
      match coords, W with
      | None, None =>
        SOutcome (ss_start s0 (ncols X) n None (ss_cache_estimator s0)) W g fs
          (Raise (PyException "At least one of coordinate_vector_list or weight_matrix should be provided"))
      | _, _ =>
        let s1 := ss_start s0 (ncols X) n (if sc_cache_data c then Some (X, y) else None) true in
        let '(fs', w) := match W, coords with
                         | Some w, _ => (fs, Ok w)
                         | None, Some v => wm fs v v
                         | None, None => (fs, Raise TypeError)
                         end in
        match w with
        | Raise e => SOutcome s1 W g fs' (Raise e)
        | Ok w =>
          let set_w s w' := match W with
                            | None => ss_set_weights s (Some w') (Some (positive_w w))
                            | Some _ => s
                            end in
          let s2 := set_w s1 w in
          match leave_out_sample r c g w with
          | Raise e => SOutcome s2 W g fs' (Raise e)
          | Ok (g1, L) =>
            let LT := transpose_mask L in
            let w_local := zero_leave_out LT w in
            let w_local := if sc_leave_local_out c then clear_diag w_local else w_local in
            match sample_locations G choice g1 (sc_sample_local_rate c) n with
            | Raise e => SOutcome s2 W g1 fs' (Raise e)
            | Ok (g2, locs) =>
              let ys := take 0 y locs in
              let s3 := ss_set_locations s2 locs ys in
              let '(w', sh) := shrink_w (r_shrink r) (sc_meta_shrink c) w in
              let W' := match W with Some _ => Some w' | None => None end in
              let s4 := set_w s3 w' in
              match (sh ;;;
                     let nb := positive_w w' in
                     second <- second_w (r_second r) (r_buffer r) nb LT ;;
                     b <- fit_bases (r_base r) X y w_local second (patches c) ;;
                     Ok (clear_mask_diag nb, b)) with
              | Raise e => SOutcome s4 W' g2 fs' (Raise e)
              | Ok (nb, (preds, XT, es)) =>
                let s5 := ss_set_base s4 preds es in
                match (p <- one_each preds ;; score <- r2_score ys p ;; Ok (p, score)) with
                | Raise e => SOutcome s5 W' g2 fs' (Raise e)
                | Ok (p, score) =>
                  let residual := map (fun a => map (fun b => b - a) ys) p in
                  let s6 := ss_set_scores s5 score residual (ss_cache_estimator s0) es in
                  match (m <- fit_metas r c g2 n y w' nb L XT es ;;
                         score' <- r2_score ys (fst (fst (snd m))) ;; Ok (m, score')) with
                  | Raise e => SOutcome s6 W' g2 fs' (Raise e)
                  | Ok ((g3, (ps, scores, ses)), score') =>
                    SOutcome (ss_set_stacking s6 ps score' scores ses) W' g3 fs' (Ok tt)
                  end
                end
              end
            end
          end
        end
      end
    end.
End Stacking.
