(** Model of accumulated local effects: /repo/georegression/ale_utils.py,
    /repo/georegression/local_ale.py and the two ALE methods of WeightModel. *)
From Verif.Model Require Import Base Ext Sort Csr Neighbour Distance WeightModel Inspect.
Open Scope nat_scope.
Open Scope R_scope.

(** [np.unique] of a 1-D array: sorted, without repetitions. *)
Fixpoint dedup (l : list R) : list R :=
  match l with
  | [] => []
  | x :: xs => match xs with
               | [] => [x]
               | y :: _ => if Reqb x y then dedup xs else x :: dedup xs
               end
  end.
Definition unique (l : list R) : list R := dedup (sortR l).

(** [np.searchsorted(q, x, side='left')] for sorted [q] (the binary search is not
    modelled): the number of elements smaller than [x]. *)
Definition searchsorted (q : list R) (x : R) : nat := List.length (filter (fun a => Rltb a x) q).

(** [np.bincount(indices)]: occurrences of 0, ..., max. *)
Definition bincount (l : list nat) : list nat :=
  match l with
  | [] => []
  | _ => tabulate (S (list_max l)) (fun k => count_occ Nat.eq_dec l k)
  end.

(** ale_utils.py:11-29 [get_quantiles]: np.percentile (linear) at
    np.linspace(0, 100, num=n); a negative [n] is a ValueError of linspace.
    [interpolation] is always 'linear' in /repo. *)
Definition percentile (n k : nat) : R := if (n =? 1)%nat then 0 else 100 * INR k / INR (n - 1).
Definition get_quantiles (values : list R) (n : Z) : result (list R) :=
  if (n <? 0)%Z then Raise ValueError
  else mapM (fun k => quantile_linear values (percentile (Z.to_nat n) k / 100)) (seq 0 (Z.to_nat n)).

(** ale_utils.py:32-62 [bisect_fun].  [fuel] bounds the iterations of the while
    loop; None would mean that the loop is still running. *)
Fixpoint bisect_loop (fuel : nat) (fun_ : Z -> result R) (target : R) (lo hi : Z) : option (result Z) :=
  if (lo <? hi)%Z then
    match fuel with
    | O => None
    | S fuel =>
      let mid := ((lo + hi) / 2)%Z in
      match fun_ mid with
      | Raise e => Some (Raise e)
      | Ok v => if Rltb v target then bisect_loop fuel fun_ target (mid + 1) hi else bisect_loop fuel fun_ target lo mid
      end
    end
  else Some (Ok lo).
Definition bisect_fun (fuel : nat) := bisect_loop fuel.

(** [np.searchsorted] followed by [indices[indices == 0] = 1]; ale_utils.py:84-85,
    local_ale.py:15-16, weight_model.py:705-706. *)
Definition bin_indices (q values : list R) : list nat :=
  map (fun x => let i := searchsorted q x in if (i =? 0)%nat then 1%nat else i) values.

(** ale_utils.py:65-88 [minimum_satisfied], as a boolean. *)
Definition minimum_satisfied (values : list R) (min_bin_points : Z) (n : Z) : result bool :=
  q <- get_quantiles values n ;;
  Ok (forallb (fun k => (min_bin_points <? Z.of_nat k)%Z) (tl (bincount (bin_indices (unique q) values)))).

(** ale_utils.py:91-132 [adaptive_grid]; the fuel is the length of the interval,
    which is enough (C66). *)
Definition minimum_not_satisfied (values : list R) (min_bin_points : Z) (n : Z) : result R :=
  b <- minimum_satisfied values min_bin_points n ;; Ok (if b then 0 else 1).
Definition adaptive_grid (values : list R) (min_bin_points : Z) : result (list R * Z) :=
  match bisect_fun (List.length values) (minimum_not_satisfied values min_bin_points) (1 / 2) 0 (Z.of_nat (List.length values)) with
  | None => Raise (PyException "still running")
  | Some r =>
    v <- r ;;
    q <- get_quantiles values (v - 1) ;;
    Ok (unique q, (v - 1)%Z)
  end.

(** [np.average(values, weights=w)]. *)
Definition average (v w : list R) : result R :=
  if Reqb (Rsum w) 0 then Raise ZeroDivisionError else Ok (Rsum (map2 Rmult v w) / Rsum w).

(** [np.cumsum]. *)
Fixpoint cumsum_from (a : R) (l : list R) : list R :=
  match l with
  | [] => []
  | x :: xs => (a + x) :: cumsum_from (a + x) xs
  end.
Definition cumsum (l : list R) : list R := cumsum_from 0 l.

(** Keys of a pandas groupby on the bin numbers: those that occur, in order. *)
Definition group_keys (indices : list nat) : list nat :=
  filter (fun k => existsb (Nat.eqb k) indices) (seq 0 (S (list_max indices))).

(** [a - b] of two prediction arrays (broadcasting of one-element arrays is not
    modelled). *)
Definition minus_arrays (a b : list R) : result (list R) :=
  if (List.length a =? List.length b)%nat then Ok (map2 Rminus a b) else Raise ValueError.

(** local_ale.py:50-53: count-weighted trapezoidal mean; arrays of different
    lengths raise (one-element broadcasting is not modelled). *)
Definition trapezoid_mean (acc : list R) (interval_n : list nat) : result R :=
  let mids := map2 (fun a b => 1 / 2 * (a + b)) (removelast acc) (tl acc) in
  if (List.length mids =? List.length (tl interval_n))%nat
  then Ok (Rsum (map2 (fun m n => m * INR n) mids (tl interval_n)) / INR (list_sum interval_n))
  else Raise ValueError.

Section Ale.
  (** Storing a float into the array [X]: the identity for float arrays,
      truncation for integer arrays. *)
  Variable store : R -> R.

  (** [z[:, feature] = values]. *)
  Definition set_column (X : matrix R) (f : nat) (values : list R) : matrix R :=
    map2 (fun x v => list_set x f (store v)) X values.

  (** [X[:, feature]]. *)
  Definition column (X : matrix R) (f : nat) : result (list R) :=
    if (f <? ncols X)%nat then Ok (map (fun x => nth f x 0) X) else Raise IndexError.

  (** local_ale.py:11-60 [weighted_ale]. *)
  Definition weighted_ale (X : matrix R) (feature : nat) (predictor : matrix R -> result (list R))
             (weights : option (list R)) (normalize : bool) (min_bin_points : Z) : result (list R * list R) :=
    values <- column X feature ;;
    grid <- adaptive_grid values min_bin_points ;;
    let fvals := fst grid in
    let indices := bin_indices fvals values in
    let interval_n := bincount indices in
    low <- mapM (fun i => getitem fvals (i - 1)) indices ;;
    high <- mapM (fun i => getitem fvals i) indices ;;
    p_low <- predictor (set_column X feature low) ;;
    p_high <- predictor (set_column X feature high) ;;
    p_deltas <- minus_arrays p_high p_low ;;
    let first := map (fun i => (i =? 1)%nat) indices in
    base_low <- mask_index first p_low ;;
    w <- match weights with None => Raise TypeError | Some w => Ok w end ;;
    base_w <- mask_index first w ;;
    base_value <- average base_low base_w ;;
    avg_p_deltas <- mapM (fun k => let m := map (fun i => (i =? k)%nat) indices in
                                   d <- mask_index m p_deltas ;; u <- mask_index m w ;; average d u) (group_keys indices) ;;
    let accum := 0 :: cumsum avg_p_deltas in
    if normalize then
      ale0 <- trapezoid_mean accum interval_n ;;
      Ok (fvals, map (fun a => a - ale0) accum)
    else Ok (fvals, map (fun a => a + base_value) accum).

  Variable est : Type.
  Variable predict_est : est -> matrix R -> result (list R).

  (** weight_model.py:687-698 [local_ALE]: the default [normalize=False] and
      [min_bin_points=5] of weighted_ale.  The loop runs over the estimators. *)
  Definition local_ALE (s : state est) (feature : nat) : result (list (list R * list R)) :=
    es <- need (local_estimators est s) ;;
    mapM (fun i =>
      v <- local_view est s i ;;
      let '(e, Xs, _, ws) := v in
      w <- finite_weights ws ;;
      weighted_ale Xs feature (predict_est e) (Some w) false 5) (seq 0 (List.length es)).

  (** weight_model.py:701-755 [global_ALE]: adaptive_grid with the default
      [min_bin_points=1]; observation [i] is predicted by local estimator [i]. *)
  Definition global_ALE (s : state est) (feature : nat) : result (list R * list R) :=
    X <- need (data_X est s) ;;
    values <- column X feature ;;
    grid <- adaptive_grid values 1 ;;
    let fvals := fst grid in
    let indices := bin_indices fvals values in
    let interval_n := bincount indices in
    low <- mapM (fun i => getitem fvals (i - 1)) indices ;;
    high <- mapM (fun i => getitem fvals i) indices ;;
    let z_low := set_column X feature low in
    let z_high := set_column X feature high in
    es <- need (local_estimators est s) ;;
    pairs <- mapM (fun i =>
      e <- get_est est es i ;;
      a <- getitem z_low i ;;
      b <- getitem z_high i ;;
      p <- predict_est e [a; b] ;;
      p0 <- getitem p 0 ;;
      p1 <- getitem p 1 ;;
      Ok (p0, p1)) (seq 0 (List.length es)) ;;
    p_deltas <- minus_arrays (map snd pairs) (map fst pairs) ;;
    if negb (List.length p_deltas =? List.length indices)%nat then Raise ValueError
    else
      avg_p_deltas <- mapM (fun k => d <- mask_index (map (fun i => (i =? k)%nat) indices) p_deltas ;;
                                     average d (map (fun _ => 1) d)) (group_keys indices) ;;
      let accum := 0 :: cumsum avg_p_deltas in
      ale0 <- trapezoid_mean accum interval_n ;;
      Ok (fvals, map (fun a => a - ale0) accum).
End Ale.
