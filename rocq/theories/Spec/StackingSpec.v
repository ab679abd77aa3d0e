(** Specification vocabulary for stacking (C49-C59). *)
From Verif.Model Require Import Base Ext Csr Neighbour Distance WeightModel NumbaImpl Stacking.
From Verif.Spec Require Import NeighbourSpec.
Open Scope nat_scope.
Open Scope R_scope.

(** The weight matrix object [w] holds the square matrix [W]: as an array, or as
    a CSR matrix without stored zeros. *)
Definition holds_real (w : swts) (W : matrix R) (n : nat) : Prop :=
  rect W n n /\
  (w = SDense W \/ exists c, w = SSparse c /\ csr_form 0 (fun x => Reqb x 0) W n c).

(** The weight matrix object fit works with. *)
Definition real_weights (wm : filesystem -> list coords -> list coords -> filesystem * result swts)
           (fs : filesystem) (coords : option (list coords)) (given : option swts) (w : swts) : Prop :=
  given = Some w \/ (given = None /\ exists v, coords = Some v /\ snd (wm fs v v) = Ok w).

(** Estimators predict one value per row. *)
Definition one_per_row {est} (predict_est : est -> matrix R -> result (list R)) : Prop :=
  forall e X p, predict_est e X = Ok p -> List.length p = List.length X.
(** Stronger: the prediction for a row depends on that row only. *)
Definition rowwise {est} (predict_est : est -> matrix R -> result (list R)) (f : est -> list R -> R) : Prop :=
  forall e X p, predict_est e X = Ok p -> p = map (f e) X.

(** Execution orders of the parallel loops of one fit of [n] points. *)
Definition valid_runtime (r : runtime) (n : nat) (k : option nat) : Prop :=
  schedule n (r_sample r) /\ schedule n (r_shrink r) /\ schedule n (r_second r) /\ List.length (r_buffer r) = n /\
  (forall k', k = Some k' -> schedule k' (r_base r)).

(** Rates the code accepts. *)
Definition valid_rates (c : sconfig) : Prop :=
  (forall q, sc_leave_out_rate c = Some q -> 0 <= q) /\
  (forall q, sc_leave_out_shrink c = Some q -> 0 <= q <= 1) /\
  (forall q, sc_meta_shrink c = Some q -> 0 <= q <= 1).

(** The sampled leave-out matrix: [L i j] says that base learner [j] serves the
    meta model of [i]. *)
Definition leave_outs {G} (seed0 : G) (choice : G -> list nat -> nat -> G * list nat) (c : sconfig) (W : matrix R)
           (L : matrix bool) : Prop :=
  exists q order g g', sc_leave_out_rate c = Some q /\ schedule (List.length W) order /\
    sample_neighbour G seed0 choice order g W q (sc_leave_out_shrink c) = Ok (g', L).

(** Observations base learner [j] is trained on: weight not zero, and [j] does not
    serve the meta model of the observation. *)
Definition base_training (n : nat) (W : matrix R) (L : matrix bool) (j : nat) : list nat :=
  filter (fun k => negb (Reqb (mget 0 W j k) 0) && negb (mget false L k j)) (seq 0 n).

(** Observations the meta model of [i] is trained on. *)
Definition meta_points (n : nat) (W' : matrix R) (i : nat) : list nat :=
  filter (fun k => Rltb 0 (mget 0 W' i k) && negb (k =? i)%nat) (seq 0 n).

(** Base learners that serve the meta model of [i]. *)
Definition meta_bases (n : nat) (L : matrix bool) (i : nat) : list nat :=
  filter (fun j => mget false L i j) (seq 0 n).

(** The base learners actually used: with estimator_sample_rate on the dense path
    at most base learner 0. *)
Definition used_bases (c : sconfig) (w : swts) (n : nat) (L : matrix bool) (i : nat) : list nat :=
  match sc_estimator_rate c, w with
  | Some r, SDense _ => firstn (Z.to_nat (Rceil r)) [0%nat]
  | _, _ => meta_bases n L i
  end.

(** Observations at which base learner [j] is evaluated. *)
Definition evaluated (n : nat) (W' : matrix R) (L : matrix bool) (j : nat) : list nat :=
  filter (fun k => existsb (fun i => mget false L i j && Rltb 0 (mget 0 W' i k)) (seq 0 n)) (seq 0 n).

(** The value for index [k] in parallel lists, 0 if absent. *)
Definition lookup (idx : list nat) (vals : list R) (k : nat) : R :=
  match find (fun e => (fst e =? k)%nat) (combine idx vals) with
  | Some e => snd e
  | None => 0
  end.

Section Spec.
  Context {est meta : Type}.
  Variable fit_est : nat -> matrix R -> list R -> list R -> result est.
  Variable predict_est : est -> matrix R -> result (list R).
  Variable fit_meta : R -> nat -> matrix R -> list R -> list R -> result meta.
  Variable predict_meta : meta -> matrix R -> result (list R).
  Variable solve : matrix R -> list R -> result (list R).

  (** [e] is base learner [j]. *)
  Definition base_learner (X : matrix R) (y : list R) (n : nat) (W : matrix R) (L : matrix bool) (j : nat) (e : est) : Prop :=
    let T := base_training n W L j in
    fit_est j (map (fun k => nth k X []) T) (map (fun k => nth k y 0) T) (map (mget 0 W j) T) = Ok e.

  (** A stacked prediction with the training design [XT] (rows [T], columns [C]),
      targets, weights and the prediction input [x]: model and prediction. *)
  Definition meta_fitted (numba : bool) (alpha : R) (ncol : nat) (XT : matrix R) (yT wT x : list R)
             (m : meta_model meta) (p : R) : Prop :=
    if numba then
      exists coef b, ridge_cholesky solve ncol XT yT alpha wT = Ok (coef, Fin b) /\
        m = MLinear meta coef (Fin b) /\ p = dot x coef + b
    else
      exists mm, fit_meta alpha ncol XT yT wT = Ok mm /\ m = MFitted meta mm /\ predict_meta mm [x] = Ok [p].
End Spec.

(** What a stacking fit produces: base learners [es] with their predictions [ps0]
    at the own location and [qs] at the evaluated observations; per observation
    the meta model, its base learners, and the stacked prediction. *)
Record stacked {est meta : Type}
  (fit_est : nat -> matrix R -> list R -> list R -> result est)
  (predict_est : est -> matrix R -> result (list R))
  (fit_meta : R -> nat -> matrix R -> list R -> list R -> result meta)
  (predict_meta : meta -> matrix R -> result (list R))
  (solve : matrix R -> list R -> result (list R))
  (garbage : R) (c : sconfig) (w : swts) (X : matrix R) (y : list R) (n : nat)
  (W : matrix R) (L : matrix bool) (W' : matrix R)
  (es : list est) (ps0 : list R) (qs : list (list R)) (ps : list R) (ses : list (stacking_estimator est meta)) : Prop := {
  st_num : List.length es = n /\ List.length ps0 = n /\ List.length ps = n /\ List.length ses = n;
  st_base : forall j e, nth_error es j = Some e ->
    base_learner fit_est X y n W L j e /\
    predict_est e [nth j X []] = Ok [nth j ps0 0] /\
    predict_est e (map (fun k => nth k X []) (evaluated n W' L j)) = Ok (nth j qs []);
  st_meta : forall i, (i < n)%nat -> exists m bases,
    let C := used_bases c w n L i in
    let T := meta_points n W' i in
    let entry j k := lookup (evaluated n W' L j) (nth j qs []) k in
    let input j := if sc_use_numba c && negb (existsb (Nat.eqb i) (evaluated n W' L j))
                   then last (nth j qs []) garbage else entry j i in
    nth_error ses i = Some (StackingEstimator est meta m bases) /\
    Forall2 (fun j e => nth_error es j = Some e) C bases /\
    meta_fitted fit_meta predict_meta solve (sc_use_numba c) (sc_alpha c) (List.length C)
      (map (fun k => map (fun j => entry j k) C) T) (map (fun k => nth k y 0) T) (map (mget 0 W' i) T)
      (map input C) m (nth i ps 0)
}.

(** Every base learner that serves a meta model takes part in it: no
    estimator_sample_rate, or a sparse weight matrix (where it is ignored). *)
Definition all_bases_used (c : sconfig) (w : swts) : Prop :=
  sc_estimator_rate c = None \/ exists m, w = SSparse m.

(** The same settings with another ... *)
Definition with_numba (c : sconfig) (b : bool) : sconfig :=
  SConfig (sc_leave_local_out c) (sc_sample_local_rate c) (sc_cache_data c) (sc_n_jobs c) (sc_n_patches c) (sc_alpha c)
    (sc_leave_out_rate c) (sc_leave_out_shrink c) (sc_meta_shrink c) (sc_estimator_rate c) b.
Definition with_leave_local_out (c : sconfig) (b : bool) : sconfig :=
  SConfig b (sc_sample_local_rate c) (sc_cache_data c) (sc_n_jobs c) (sc_n_patches c) (sc_alpha c)
    (sc_leave_out_rate c) (sc_leave_out_shrink c) (sc_meta_shrink c) (sc_estimator_rate c) (sc_use_numba c).
Definition with_estimator_rate (c : sconfig) (q : option R) : sconfig :=
  SConfig (sc_leave_local_out c) (sc_sample_local_rate c) (sc_cache_data c) (sc_n_jobs c) (sc_n_patches c) (sc_alpha c)
    (sc_leave_out_rate c) (sc_leave_out_shrink c) (sc_meta_shrink c) q (sc_use_numba c).
Definition with_n_patches (c : sconfig) (k : nat) : sconfig :=
  SConfig (sc_leave_local_out c) (sc_sample_local_rate c) (sc_cache_data c) (sc_n_jobs c) (Some k) (sc_alpha c)
    (sc_leave_out_rate c) (sc_leave_out_shrink c) (sc_meta_shrink c) (sc_estimator_rate c) (sc_use_numba c).
Definition with_alpha (c : sconfig) (alpha : R) : sconfig :=
  SConfig (sc_leave_local_out c) (sc_sample_local_rate c) (sc_cache_data c) (sc_n_jobs c) (sc_n_patches c) alpha
    (sc_leave_out_rate c) (sc_leave_out_shrink c) (sc_meta_shrink c) (sc_estimator_rate c) (sc_use_numba c).

(** predict_by_fit: [tw k i] is the weight of training point [k] for new point [i]. *)
Section PredictSpec.
  Context {est meta : Type}.
  Variable fit_est : nat -> matrix R -> list R -> list R -> result est.
  Variable fit_meta : R -> nat -> matrix R -> list R -> list R -> result meta.
  Variable predict_meta : meta -> matrix R -> result (list R).

  (** Training points with positive weight for new point [i]. *)
  Definition support (n : nat) (tw : matrix R) (i : nat) : list nat :=
    filter (fun k => Rltb 0 (mget 0 tw k i)) (seq 0 n).

  (** [e] is the base learner of training point [j]: fitted on all points with
      non-zero weight, except [j] itself under leave_local_out. *)
  Definition plain_base (leave_local_out : bool) (X : matrix R) (y : list R) (n : nat) (W : matrix R) (j : nat) (e : est) : Prop :=
    let T := filter (fun k => negb (Reqb (mget 0 W j k) 0) && negb (leave_local_out && (k =? j)%nat)) (seq 0 n) in
    fit_est j (map (fun k => nth k X []) T) (map (fun k => nth k y 0) T) (map (mget 0 W j) T) = Ok e.

  (** The prediction [p] for a new point with features [x] and support [T] with
      weights [ws]: a meta model fitted on the base predictions [f e] at the
      support and applied to the base predictions at [x]. *)
  Definition new_prediction (f : est -> list R -> R) (alpha : R) (X : matrix R) (y : list R) (T : list nat) (ws : list R)
             (bases : list est) (x : list R) (p : list R) : Prop :=
    exists m, fit_meta alpha (List.length T) (map (fun k => map (fun e => f e (nth k X [])) bases) T)
                (map (fun k => nth k y 0) T) ws = Ok m /\
              predict_meta m [map (fun e => f e x) bases] = Ok p.
End PredictSpec.

(** Observation [k] is [i] itself, or within two steps of it: it has a weight that
    is not zero for [i], or for an observation [j] with positive weight for [i]. *)
Definition two_steps (n : nat) (W : matrix R) (i k : nat) : Prop :=
  k = i \/ exists j, (j < n)%nat /\ (j = i \/ 0 < mget 0 W i j) /\ mget 0 W j k <> 0.
(** The same for a new point [i], with weights [U] to the training points. *)
Definition new_two_steps (n : nat) (W U : matrix R) (i k : nat) : Prop :=
  0 < mget 0 U k i \/ exists j, (j < n)%nat /\ 0 < mget 0 U j i /\ mget 0 W j k <> 0.
