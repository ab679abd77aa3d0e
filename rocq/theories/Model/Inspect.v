(** Model of the inspection methods of /repo/georegression/weight_model.py:
    importance, interaction, partial dependence and ICE; and of local_pd.py.
    Weight matrices are NumPy arrays here (row indexing of a CSR matrix is not
    modelled).  A score that would be NaN (fewer than two observations, which fit
    rejects) is modelled as ValueError. *)
From Verif.Model Require Import Base Ext Csr Neighbour Distance WeightModel.
Open Scope string_scope.
Open Scope nat_scope.
Open Scope R_scope.

(** ** Averages *)

(** [np.average(m, axis=1)], rows without entries give NaN. *)
Definition emean (l : list R) : ext := match l with [] => NaN | _ => Fin (mean l) end.
Definition row_means (m : matrix R) : list ext := map emean m.

(** [np.average(m, axis=0, weights=w)] of an array with [g] columns: the lengths
    must agree and the weights must not sum to zero. *)
Definition average0 (g : nat) (m : matrix R) (w : list R) : result (list R) :=
  if negb (List.length m =? List.length w)%nat then Raise TypeError
  else if Reqb (Rsum w) 0 then Raise ZeroDivisionError
  else Ok (tabulate g (fun j => Rsum (map2 (fun row a => nth j row 0 * a) m w) / Rsum w)).

(** [np.concatenate([a, b], axis=1)]. *)
Definition hconcat (a b : matrix R) : result (matrix R) :=
  if (List.length a =? List.length b)%nat then Ok (map2 (@app R) a b) else Raise ValueError.

Section Inspect.
  Variable est : Type.
  Variable predict_est : est -> matrix R -> result (list R).
  Variable G : Type.
  (** [np.random.permutation] / [np.random.shuffle]. *)
  Variable permute : G -> list nat -> G * list nat.

  (** sklearn.inspection.permutation_importance(...).importances_mean, called in
      job [i] (whose random numbers it uses); written out in
      Model/LocalImportance.v. *)
  Variable permutation_importance : nat -> est -> matrix R -> list R -> list ext -> nat -> result (list ext).
  (** sklearn.inspection.partial_dependence(est, X, [f], kind='both'): grid and
      individual curves. *)
  Variable sk_partial : est -> matrix R -> nat -> result (list R * matrix R).
  (** sklearn's _grid_from_X(X[:, [f]], (0.05, 0.95), 100). *)
  Variable grid_from_X : matrix R -> nat -> result (list R).
  (** What storing a number in a copy of X does to it: nothing if X holds floats,
      truncation if it holds integers (check_X_y keeps integer arrays). *)
  Variable store : R -> R.

  Notation state := (state est).

  (** [self.X] and the like on an unfitted or uncached model. *)
  Definition need {A} (o : option A) : result A := match o with Some a => Ok a | None => Raise TypeError end.
  (** [self.local_estimator_list[i]]; an element is None if estimators are not cached. *)
  Definition get_est (es : list (option est)) (i : nat) : result est :=
    o <- getitem es i ;; match o with Some e => Ok e | None => Raise AttributeError end.

  (** ** Permutation importance *)

  (** Draw [k] permutations of [0..n-1], one after the other. *)
  Fixpoint draw_perms (g : G) (n k : nat) : G * list (list nat) :=
    match k with
    | O => (g, [])
    | S k => let '(g1, p) := permute g (seq 0 n) in let '(g2, ps) := draw_perms g1 n k in (g2, p :: ps)
    end.

  (** weight_model.py:529-533: the rows fed to estimator [i], one per (feature,
      repeat); [perms] lists the permutations by feature, then repeat. *)
  Definition permuted_rows (X : matrix R) (F r : nat) (perms : list (list nat)) (i : nat) : result (matrix R) :=
    row <- getitem X i ;;
    mapM (fun q =>
      let f := (q / r)%nat in
      p <- getitem perms q ;;
      j <- getitem p i ;;
      other <- getitem X j ;;
      v <- getitem other f ;;
      Ok (list_set row f v)) (seq 0 (F * r)).

  (** weight_model.py:525-540: the predictions, [N] rows of [F * r]. *)
  Definition permuted_predictions (X : matrix R) (es : list (option est)) (n F r : nat) (perms : list (list nat))
    : result (matrix R) :=
    mapM (fun i =>
      e <- get_est es i ;;
      rows <- permuted_rows X F r perms i ;;
      p <- predict_est e rows ;;
      if (List.length p =? F * r)%nat then Ok p else Raise ValueError) (seq 0 n).

  (** The score decrease of one column of predictions (541-545). *)
  Definition decrease (llocv : R) (y preds : list R) : result R :=
    s <- r2_score y preds ;;
    match s with Fin s => Ok (llocv - s) | _ => Raise ValueError end.

  Definition set_importance (s : state) (m : matrix R) : state :=
    State est (is_fitted est s) (n_features_in est s) (n_obs est s) (data_X est s) (data_y est s) (data_coords est s)
      (weight_matrix_ est s) (neighbour_matrix_ est s) (local_indices_ est s) (y_sample_ est s) (local_estimators est s)
      (local_predict_ est s) (llocv_score_ est s) (local_residual_ est s) (Some m) (interaction_matrix_ est s).
  Definition set_interaction (s : state) (m : list (matrix R)) : state :=
    State est (is_fitted est s) (n_features_in est s) (n_obs est s) (data_X est s) (data_y est s) (data_coords est s)
      (weight_matrix_ est s) (neighbour_matrix_ est s) (local_indices_ est s) (y_sample_ est s) (local_estimators est s)
      (local_predict_ est s) (llocv_score_ est s) (local_residual_ est s) (permutation_score_decrease_ est s) (Some m).

  (** llocv_score_ as a number. *)
  Definition need_score (s : state) : result R :=
    v <- need (llocv_score_ est s) ;; match v with Fin x => Ok x | _ => Raise ValueError end.

  (** weight_model.py:514-545: the trials of one call, shape (F, r); apply_along_axis
      (519) raises on an array without columns. *)
  Definition importance_trials (s : state) (g : G) (r : nat) : G * result (matrix R) :=
    match n_obs est s, n_features_in est s with
    | Some n, Some F =>
      if (r =? 0)%nat then (g, Raise ValueError) else
      let '(g', perms) := draw_perms g n (F * r) in
      (g', X <- need (data_X est s) ;;
           es <- need (local_estimators est s) ;;
           preds <- permuted_predictions X es n F r perms ;;
           y <- need (data_y est s) ;;
           llocv <- need_score s ;;
           mapM (fun f => mapM (fun k => decrease llocv y (map (fun row => nth (f * r + k) row 0) preds)) (seq 0 r)) (seq 0 F))
    | _, _ => (g, Raise TypeError)
    end.

  (** weight_model.py:502-559 [importance_score_global]. *)
  Definition importance_score_global (c : config) (s : state) (g : G) (r : nat) : state * G * result (list ext) :=
    if negb (cache_data c) || negb (cache_estimator c)
    then (s, g, Raise (PyException "Importance score of global needs cache_data and cache_estimator set True"))
    else
      let '(g', trials) := importance_trials s g r in
      match (t <- trials ;;
             match permutation_score_decrease_ est s with
             | Some old => hconcat old t
             | None => Ok t
             end) with
      | Ok m => (set_importance s m, g', Ok (row_means m))
      | Raise e => (s, g', Raise e)
      end.

  (** ** Interaction *)

  (** weight_model.py:590-595: two columns permuted independently (the second
      shuffle starts from the result of the first). *)
  Definition permute_pair (X : matrix R) (n a b : nat) (g : G) : G * result (matrix R) :=
    let '(g1, p1) := permute g (seq 0 n) in
    let '(g2, p2) := permute g1 p1 in
    (g2, mapM (fun i =>
           row <- getitem X i ;;
           j <- getitem p1 i ;; ra <- getitem X j ;; va <- getitem ra a ;;
           k <- getitem p2 i ;; rb <- getitem X k ;; vb <- getitem rb b ;;
           Ok (list_set (list_set row a va) b vb)) (seq 0 n)).

  (** weight_model.py:597-607: score decrease after permuting the pair. *)
  Definition pair_trial (X : matrix R) (y : list R) (es : list (option est)) (llocv : R) (n a b : nat) (g : G) : G * result R :=
    let '(g', Xp) := permute_pair X n a b g in
    (g', Xp <- Xp ;;
         preds <- mapM (fun ex => e <- match fst ex with Some e => Ok e | None => Raise AttributeError end ;;
                                  predict_est e [snd ex]) (combine es Xp) ;;
         p <- squeeze preds ;;
         decrease llocv y p).

  Fixpoint trials_of (f : G -> G * result R) (g : G) (r : nat) : G * result (list R) :=
    match r with
    | O => (g, Ok [])
    | S r => let '(g1, x) := f g in
             match x with
             | Raise e => (g1, Raise e)
             | Ok x => let '(g2, xs) := trials_of f g1 r in (g2, xs <- xs ;; Ok (x :: xs))
             end
    end.

  (** The pairs (a, b), a < b, in loop order. *)
  Definition pairs (F : nat) : list (nat * nat) :=
    List.concat (map (fun a => map (fun b => (a, b)) (seq (S a) (F - S a))) (seq 0 F)).

  Fixpoint pair_loop (f : nat * nat -> G -> G * result (list R)) (g : G) (ps : list (nat * nat))
    : G * result (list (nat * nat * list R)) :=
    match ps with
    | [] => (g, Ok [])
    | p :: ps => let '(g1, x) := f p g in
                 match x with
                 | Raise e => (g1, Raise e)
                 | Ok x => let '(g2, xs) := pair_loop f g1 ps in (g2, xs <- xs ;; Ok ((p, x) :: xs))
                 end
    end.

  (** [interaction_matrix[a, b]] after the loops: the written values, elsewhere
      what [np.empty] left. *)
  Definition interaction_cell (buffer : nat -> nat -> nat -> R) (vals : list (nat * nat * list R)) (a b k : nat) : R :=
    match find (fun v => (fst (fst v) =? a)%nat && (snd (fst v) =? b)%nat) vals with
    | Some v => nth k (snd v) 0
    | None => buffer a b k
    end.

  (** [M + M.T] for M of shape (F, F, r): the transpose of a 3-D array has shape
      (r, F, F); broadcasting. *)
  Definition plus_transpose (F r : nat) (M : nat -> nat -> nat -> R) : result (list (matrix R)) :=
    match bc_dim F r, bc_dim r F with
    | Some d1, Some d3 =>
      Ok (tabulate d1 (fun a => mtab F d3 (fun b k =>
            M (bc_index F a) b (bc_index r k) + M (bc_index F k) b (bc_index r a))))
    | _, _ => Raise ValueError
    end.

  (** [np.concatenate([A, B], axis=2)]. *)
  Definition concat2 (A B : list (matrix R)) : result (list (matrix R)) :=
    if negb (List.length A =? List.length B)%nat then Raise ValueError
    else if negb (forallb (fun ab => (List.length (fst ab) =? List.length (snd ab))%nat) (combine A B)) then Raise ValueError
    else Ok (map2 (map2 (@app R)) A B).

  (** weight_model.py:561-624 [interaction_score_global].  Recorded rows are never
      empty (importance raises for 0 repeats), so the means are numbers. *)
  Definition interaction_score_global (c : config) (buffer : nat -> nat -> nat -> R) (s : state) (g : G) (r : nat)
    : state * G * result (matrix ext) :=
    if negb (cache_data c) || negb (cache_estimator c)
    then (s, g, Raise (PyException "Importance score of global needs cache_data and cache_estimator set True"))
    else
      let '(s1, g1, first) := match permutation_score_decrease_ est s with
                              | Some _ => (s, g, Ok [])
                              | None => importance_score_global c s g 5
                              end in
      match (first ;;;
             m <- need (permutation_score_decrease_ est s1) ;;
             single <- mapM (fun v => match v with Fin x => Ok x | _ => Raise ValueError end) (row_means m) ;;
             n <- need (n_obs est s1) ;;
             F <- need (n_features_in est s1) ;;
             X <- need (data_X est s1) ;;
             y <- need (data_y est s1) ;;
             es <- need (local_estimators est s1) ;;
             llocv <- need_score s1 ;;
             Ok (single, n, F, X, y, es, llocv)) with
      | Raise e => (s1, g1, Raise e)
      | Ok (single, n, F, X, y, es, llocv) =>
        let '(g2, vals) := pair_loop (fun p g =>
             let '(g', xs) := trials_of (pair_trial X y es llocv n (fst p) (snd p)) g r in
             (g', xs <- xs ;; sa <- getitem single (fst p) ;; sb <- getitem single (snd p) ;;
                  Ok (map (fun x => x - sa - sb) xs))) g1 (pairs F) in
        match (vals <- vals ;;
               t <- plus_transpose F r (interaction_cell buffer vals) ;;
               match interaction_matrix_ est s1 with
               | Some old => concat2 old t
               | None => Ok t
               end) with
        | Raise e => (s1, g2, Raise e)
        | Ok t => (set_interaction s1 t, g2, Ok (map row_means t))
        end
      end.

  (** weight_model.py:469-500 [importance_score_local]; [order] is the execution
      order of the jobs. *)
  Definition local_view (s : state) (i : nat) : result (est * matrix R * list R * list ext) :=
    es <- need (local_estimators est s) ;;
    e <- get_est es i ;;
    W <- need (weight_matrix_ est s) ;;
    nb <- need (neighbour_matrix_ est s) ;;
    X <- need (data_X est s) ;;
    y <- need (data_y est s) ;;
    match W, nb with
    | WDense m, MDense b =>
      w <- getitem m i ;;
      mask <- getitem b i ;;
      Xs <- mask_index mask X ;;
      ys <- mask_index mask y ;;
      ws <- mask_index mask w ;;
      Ok (e, Xs, ys, ws)
    | _, _ => Raise TypeError
    end.

  Definition importance_score_local (c : config) (order : list nat) (s : state) (r : nat) : result (matrix ext) :=
    if negb (cache_data c) || negb (cache_estimator c)
    then Raise (PyException "Importance score of local needs cache_data and cache_estimator set True")
    else
      n <- need (n_obs est s) ;;
      views <- mapM (local_view s) (seq 0 n) ;;
      parallel order (map2 (fun i v => let '(e, Xs, ys, ws) := v in permutation_importance i e Xs ys ws r) (seq 0 n) views).

  (** ** Partial dependence *)

  (** weight_model.py:194-221 [local_partial_dependence]: per feature, the grid
      and the weighted average of the individual curves. *)
  Definition local_partial_dependence (e : est) (X : matrix R) (w : list R) (F : nat) : result (list (list R * list R)) :=
    mapM (fun f =>
      p <- sk_partial e X f ;;
      a <- average0 (List.length (fst p)) (snd p) w ;;
      Ok (fst p, a)) (seq 0 F).

  (** local_pd.py:5-55: the same after dropping the rows of weight 0. *)
  Definition local_pd (e : est) (X : matrix R) (w : list R) : result (list (list R * list R)) :=
    let mask := map (fun a => negb (Reqb a 0)) w in
    Xs <- mask_index mask X ;;
    ws <- mask_index mask w ;;
    local_partial_dependence e Xs ws (ncols X).

  (** [np.array(curves, dtype=object)]: if all curves have the same number of
      points the array has four axes and [transpose((1, 0, 2))] raises;
      otherwise it has shape (N, F, 2).  The result is the pair (by location, by
      feature). *)
  Definition curve_length (c : list R * list R) : nat := List.length (fst c).
  Definition object_array (F : nat) (curves : matrix (list R * list R))
    : result (matrix (list R * list R) * matrix (list R * list R)) :=
    match List.concat curves with
    | [] => Raise ValueError
    | c0 :: cs =>
      if forallb (fun c => (curve_length c =? curve_length c0)%nat) cs then Raise ValueError
      else Ok (curves, transpose ([], []) F curves)
    end.

  Definition finite_weights (w : list ext) : result (list R) :=
    mapM (fun v => match v with Fin x => Ok x | _ => Raise ValueError end) w.

  (** weight_model.py:626-660 [partial_dependence]. *)
  Definition partial_dependence (order : list nat) (s : state) : result (matrix (list R * list R) * matrix (list R * list R)) :=
    n <- need (n_obs est s) ;;
    views <- mapM (local_view s) (seq 0 n) ;;
    F <- need (n_features_in est s) ;;
    curves <- parallel order (map (fun v => let '(e, Xs, _, ws) := v in
                                           w <- finite_weights ws ;; local_partial_dependence e Xs w F) views) ;;
    object_array F curves.

  (** weight_model.py:662-685 [local_ICE]: the curve of the own observation. *)
  Definition ice_curve (e : est) (Xs : matrix R) (x : list R) (f : nat) : result (list R * list R) :=
    values <- grid_from_X Xs f ;;
    y <- predict_est e (map (fun v => list_set x f (store v)) values) ;;
    Ok (values, y).
  Definition local_ICE (s : state) : result (matrix (list R * list R) * matrix (list R * list R)) :=
    n <- need (n_obs est s) ;;
    F <- need (n_features_in est s) ;;
    X <- need (data_X est s) ;;
    curves <- mapM (fun i => v <- local_view s i ;; let '(e, Xs, _, _) := v in
                             x <- getitem X i ;;
                             mapM (ice_curve e Xs x) (seq 0 F)) (seq 0 n) ;;
    object_array F curves.
End Inspect.
