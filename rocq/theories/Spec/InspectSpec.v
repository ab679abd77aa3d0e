(** Specification vocabulary for the inspection methods (C48, C62-C65, C89-C92). *)
From Verif.Model Require Import Base Ext Csr Distance WeightModel Inspect.
Open Scope nat_scope.
Open Scope R_scope.

(** [s] is sklearn's coefficient of determination of predictions [p] for [y]. *)
Definition is_r2 (y p : list R) (s : R) : Prop :=
  let sse := Rsum (map2 (fun a b => (a - b) * (a - b)) y p) in
  let m := Rsum y / INR (List.length y) in
  let sst := Rsum (map (fun a => (a - m) * (a - m)) y) in
  (sst <> 0 -> s = 1 - sse / sst) /\ (sst = 0 -> sse = 0 -> s = 1) /\ (sst = 0 -> sse <> 0 -> s = 0).

(** [x'] is [x] with feature [f] set to [v]. *)
Definition with_feature (x : list R) (f : nat) (v : R) (x' : list R) : Prop :=
  List.length x' = List.length x /\
  forall j, (j < List.length x)%nat -> nth j x' 0 = if (j =? f)%nat then v else nth j x 0.

(** np.random.permutation / shuffle rearrange. *)
Definition valid_permute {G} (permute : G -> list nat -> G * list nat) : Prop :=
  forall g l, Permutation (snd (permute g l)) l.

(** [p] maps 0..n-1 one-to-one onto itself. *)
Definition bijection (n : nat) (p : nat -> nat) : Prop := Permutation (map p (seq 0 n)) (seq 0 n).

(** A model fitted with both caches on [N] observations of [F] features: data,
    one estimator per observation and a score. *)
Definition fitted_model {est} (s : state est) (X : matrix R) (y : list R) (es : list est) (N F : nat) (score : R) : Prop :=
  n_obs est s = Some N /\ n_features_in est s = Some F /\
  data_X est s = Some X /\ data_y est s = Some y /\
  local_estimators est s = Some (map Some es) /\ List.length es = N /\
  rect X N F /\ List.length y = N /\ (2 <= N)%nat /\ (0 < F)%nat /\
  llocv_score_ est s = Some (Fin score).

(** Mean of a non-empty list; NaN of the empty one. *)
Definition is_mean (l : list R) (m : ext) : Prop :=
  (l = [] -> m = NaN) /\ (l <> [] -> m = Fin (Rsum l / INR (List.length l))).

(** The two arrays side by side; no first array: the second. *)
Definition beside (old : option (matrix R)) (t m : matrix R) : Prop :=
  match old with
  | None => m = t
  | Some o => List.length o = List.length t /\ m = map2 (@app R) o t
  end.

(** The same for arrays of three dimensions, along the last. *)
Definition beside3 (old : option (list (matrix R))) (t m : list (matrix R)) : Prop :=
  match old with
  | None => m = t
  | Some o => List.length o = List.length t /\
      (forall a, (a < List.length t)%nat -> List.length (nth a o []) = List.length (nth a t [])) /\ m = map2 (map2 (@app R)) o t
  end.

(** Index into an axis of size [d] stretched by NumPy broadcasting. *)
Definition stretched (d i : nat) : nat := if (d =? 1)%nat then 0%nat else i.

(** The predictions of [e] for a batch are those for its rows. *)
Definition rowwise {est} (predict_est : est -> matrix R -> result (list R)) (e : est) (h : list R -> R) : Prop :=
  forall rows, predict_est e rows = Ok (map h rows).

(** [h] does not depend on feature [f] (for rows of [F] features). *)
Definition ignores (F f : nat) (h : list R -> R) : Prop :=
  forall x x', List.length x = F -> List.length x' = F -> (forall j, j <> f -> nth j x 0 = nth j x' 0) -> h x = h x'.

(** A weight is positive. *)
Definition positive (v : ext) : bool :=
  match v with Fin x => if Rlt_dec 0 x then true else false | PInf => true | _ => false end.

(** The observations with a positive weight at location [i], in order. *)
Definition positive_set (W : matrix ext) (n i : nat) : list nat :=
  filter (fun j => positive (mget (Fin 0) W i j)) (seq 0 n).

(** The fitted model keeps the weight matrix [W], a NumPy array. *)
Definition fitted_weights {est} (s : state est) (W : matrix ext) (N : nat) : Prop :=
  rect W N N /\ weight_matrix_ est s = Some (WDense W) /\
  exists nb, neighbour_matrix_ est s = Some (MDense nb) /\ rect nb N N /\
    forall i j, (i < N)%nat -> (j < N)%nat -> mget false nb i j = positive (mget (Fin 0) W i j).

(** [a] is the average of [v] with weights [w]: it solves a * sum w = sum w v. *)
Definition weighted_average (w v : list R) (a : R) : Prop :=
  Rsum w <> 0 /\ a * Rsum w = Rsum (map2 Rmult w v).

(** All curves have the same number of points. *)
Definition same_length {A} (curves : list (list (list R * A))) : Prop :=
  exists n, forall row c, In row curves -> In c row -> List.length (fst c) = n.

Section Spec.
  Context {est G : Type}.
  Variable fit_est : nat -> matrix R -> list R -> list ext -> result est.
  Variable predict_est : est -> matrix R -> result (list R).
  Variable choice : G -> list nat -> nat -> G * list nat.
  Variable cpu : nat.
  Variable wm : filesystem -> list coords -> list coords -> filesystem * result weights.
  Variable permute : G -> list nat -> G * list nat.
  Variable sk_partial : est -> matrix R -> nat -> result (list R * matrix R).
  Variable grid_from_X : matrix R -> nat -> result (list R).
  Variable store : R -> R.

  (** [e] predicts one number per row, for rows of [F] features. *)
  Definition predicts (F : nat) (e : est) : Prop :=
    forall rows, Forall (fun x => List.length x = F) rows -> exists p, predict_est e rows = Ok p /\ List.length p = List.length rows.

  (** [t] holds, for feature [f] and repeat [k], the decrease from [score] of the
      R2 of the local predictions after permuting feature [f] among the
      observations; all other features keep their values. *)
  Definition trials_of_model (X : matrix R) (y : list R) (es : list est) (N F : nat) (score : R) (r : nat) (t : matrix R) : Prop :=
    exists (perm : nat -> nat -> nat -> nat) (preds : matrix R),
      (forall f k, (f < F)%nat -> (k < r)%nat -> bijection N (perm f k)) /\
      (forall i e, nth_error es i = Some e -> exists rows,
         List.length rows = (F * r)%nat /\ predict_est e rows = Ok (nth i preds []) /\ List.length (nth i preds []) = (F * r)%nat /\
         forall f k, (f < F)%nat -> (k < r)%nat ->
           with_feature (nth i X []) f (mget 0 X (perm f k i) f) (nth (f * r + k) rows [])) /\
      rect t F r /\
      (forall f k, (f < F)%nat -> (k < r)%nat ->
         is_r2 y (map (fun i => mget 0 preds i (f * r + k)) (seq 0 N)) (score - mget 0 t f k)).

  (** [d] is the decrease from [score] of the R2 of the local predictions after
      permuting features [a] and [b] among the observations, each on its own. *)
  Definition pair_trial_of_model (X : matrix R) (y : list R) (es : list est) (N : nat) (score : R) (a b : nat) (d : R) : Prop :=
    exists (p q : nat -> nat) (preds : list R), bijection N p /\ bijection N q /\ List.length preds = N /\
      (forall i e, nth_error es i = Some e -> exists x1 x2,
         with_feature (nth i X []) a (mget 0 X (p i) a) x1 /\ with_feature x1 b (mget 0 X (q i) b) x2 /\
      predict_est e [x2] = Ok [nth i preds 0]) /\
      is_r2 y preds (score - d).

  (** A history of fits and importance calls, with the numbers of repeats of the
      successful calls. *)
  Inductive history : state est -> state est -> list nat -> Prop :=
  | H_start s : history s s []
  | H_fit s s1 rs c order g fs X y coords given :
      history s s1 rs -> history s (o_state est G (fit est fit_est predict_est G choice cpu wm c order g fs s1 X y coords given)) rs
  | H_importance s s1 rs c g r s2 g' out :
      history s s1 rs -> importance_score_global est predict_est G permute c s1 g r = (s2, g', Ok out) -> history s s2 (rs ++ [r])
  | H_failure s s1 rs c g r s2 g' e :
      history s s1 rs -> importance_score_global est predict_est G permute c s1 g r = (s2, g', Raise e) -> history s s2 rs.

  (** Curve of feature [f]: sklearn's grid, and at every grid point the average of
      the individual curves with weights [w]. *)
  Definition weighted_curve (e : est) (X : matrix R) (w : list R) (f : nat) (c : list R * list R) : Prop :=
    exists ind, sk_partial e X f = Ok (fst c, ind) /\ List.length ind = List.length w /\ List.length (snd c) = List.length (fst c) /\ Rsum w <> 0 /\
      forall j, (j < List.length (fst c))%nat -> weighted_average w (map (fun row => nth j row 0) ind) (nth j (snd c) 0).

  (** partial_dependence: curves of location [i] from its own estimator and the
      observations of positive weight. *)
  Definition pd_curves (X : matrix R) (W : matrix ext) (es : list est) (N F : nat) (curves : matrix (list R * list R)) : Prop :=
    List.length curves = N /\
    forall i e, nth_error es i = Some e -> exists w, Forall2 (fun j a => mget (Fin 0) W i j = Fin a) (positive_set W N i) w /\
      List.length (nth i curves []) = F /\
      forall f, (f < F)%nat -> weighted_curve e (map (fun j => nth j X []) (positive_set W N i)) w f (nth f (nth i curves []) ([], [])).

  (** local_ICE: the curve of the own observation, whose feature [f] is set to each
      grid value (as stored in X). *)
  Definition ice_curves (X : matrix R) (W : matrix ext) (es : list est) (N F : nat) (curves : matrix (list R * list R)) : Prop :=
    List.length curves = N /\
    forall i e, nth_error es i = Some e -> List.length (nth i curves []) = F /\
      forall f, (f < F)%nat -> let c := nth f (nth i curves []) ([], []) in
        grid_from_X (map (fun j => nth j X []) (positive_set W N i)) f = Ok (fst c) /\
        exists rows, Forall2 (fun v x => with_feature (nth i X []) f (store v) x) (fst c) rows /\ predict_est e rows = Ok (snd c).
End Spec.

(** Number of distinct values of feature [f]. *)
Definition distinct_values (X : matrix R) (f : nat) : nat := List.length (nodup Req_EM_T (map (fun x => nth f x 0) X)).

(** sklearn's _grid_from_X: the distinct values if there are fewer than
    [resolution] (100), otherwise that many equidistant points. *)
Definition grid_size (resolution : nat) (X : matrix R) (f : nat) : nat := Nat.min resolution (distinct_values X f).

(** Storing a number in an integer array cuts off its fractional part. *)
Definition cuts_off (store : R -> R) : Prop :=
  forall (z : Z) v, (0 <= IZR z <= v /\ v < IZR z + 1) \/ (v <= IZR z <= 0 /\ IZR z - 1 < v) -> store v = IZR z.
