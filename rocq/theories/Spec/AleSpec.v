(** Specification vocabulary for accumulated local effects (C66-C70, C94-C96). *)
From Coq Require Import Sorting.Sorted.
From Verif.Model Require Import Base.
From Verif.Spec Require Export KernelSpec.
Open Scope nat_scope.
Open Scope R_scope.

(** [q] lists, in increasing order, the distinct values of the [n] quantiles at
    0, 1/(n-1), ..., 1. *)
Definition quantile_grid (values : list R) (n : nat) (q : list R) : Prop :=
  StronglySorted Rlt q /\
  forall x, In x q <-> exists k, (k < n)%nat /\ hyndman_fan_7 values (INR k / INR (n - 1)) x.

(** Bin [k] of the grid is the interval from its point [k-1] (excluded) to its
    point [k] (included); bin 1 also contains the first grid point. *)
Definition in_bin (q : list R) (k : nat) (v : R) : bool :=
  (Rltb (nth (k - 1) q 0) v && Rleb v (nth k q 0)) || ((k =? 1)%nat && Reqb v (nth 0 q 0)).

Definition bin_count (q : list R) (k : nat) (values : list R) : nat := List.length (filter (in_bin q k) values).

(** Every bin contains more than [m] values. *)
Definition filled (m : Z) (q values : list R) : Prop :=
  forall k, (1 <= k < List.length q)%nat -> (m < Z.of_nat (bin_count q k values))%Z.

Definition is_minimum (values : list R) (x : R) : Prop := In x values /\ forall v, In v values -> x <= v.
Definition is_maximum (values : list R) (x : R) : Prop := In x values /\ forall v, In v values -> v <= x.

(** The grid used for [values]: strictly increasing from the minimum to the
    maximum, at least two points, each bin with more than [m] values. *)
Definition proper_grid (m : Z) (values q : list R) : Prop :=
  StronglySorted Rlt q /\ (2 <= List.length q)%nat /\
  is_minimum values (nth 0 q 0) /\ is_maximum values (nth (List.length q - 1) q 0) /\ filled m q values.

(** The observations whose value lies in bin [k]. *)
Definition members (q : list R) (k : nat) (values : list R) : list nat :=
  filter (fun i => in_bin q k (nth i values 0)) (seq 0 (List.length values)).

(** [a] solves a * sum w = sum w v: the average of [v] with weights [w]. *)
Definition average_of (w v : list R) (a : R) : Prop := Rsum w <> 0 /\ a * Rsum w = Rsum (map2 Rmult w v).

(** [rows] are the observations, with feature [f] moved to the lower
    ([shift] = 1) or upper ([shift] = 0) end of their bin (as stored in X). *)
Definition moved (store : R -> R) (X : matrix R) (f : nat) (q : list R) (shift : nat) (rows : matrix R) : Prop :=
  List.length rows = List.length X /\
  forall i k, (i < List.length X)%nat -> (1 <= k < List.length q)%nat -> in_bin q k (mget 0 X i f) = true ->
    List.length (nth i rows []) = List.length (nth i X []) /\
    forall j, (j < List.length (nth i X []))%nat ->
      mget 0 rows i j = if (j =? f)%nat then store (nth (k - shift) q 0) else mget 0 X i j.

(** The values of feature [f]. *)
Definition feature_values (X : matrix R) (f : nat) : list R := map (fun x => nth f x 0) X.

(** The count-weighted mean of the curve [a], taken at the middle of each bin, is 0. *)
Definition centred (q values a : list R) : Prop :=
  Rsum (map (fun k => INR (bin_count q k values) * ((nth (k - 1) a 0 + nth k a 0) / 2)) (seq 1 (List.length q - 1))) = 0.

(** [h] does not depend on feature [f]. *)
Definition independent_of (f : nat) (h : list R -> R) : Prop :=
  forall x x', List.length x = List.length x' -> (forall j, j <> f -> nth j x 0 = nth j x' 0) -> h x = h x'.

(** What an ALE curve [a] on the grid [q] is: its step at bin [k] is the weighted
    average, over the observations of the bin, of the change of the prediction
    when the feature moves from the lower to the upper end of the bin.  It starts
    at the average prediction at the lower end of the first bin, or is centred. *)
Definition is_ale (store : R -> R) (X : matrix R) (f : nat) (predictor : matrix R -> result (list R)) (w : list R)
           (normalize : bool) (m : Z) (q a : list R) : Prop :=
  let values := feature_values X f in
  proper_grid m values q /\ List.length a = List.length q /\
  exists low high p_low p_high,
    moved store X f q 1 low /\ moved store X f q 0 high /\
    predictor low = Ok p_low /\ predictor high = Ok p_high /\
    List.length p_low = List.length X /\ List.length p_high = List.length X /\
    (forall k, (1 <= k < List.length q)%nat ->
       average_of (map (fun i => nth i w 0) (members q k values))
                  (map (fun i => nth i p_high 0 - nth i p_low 0) (members q k values))
                  (nth k a 0 - nth (k - 1) a 0)) /\
    (normalize = false ->
       average_of (map (fun i => nth i w 0) (members q 1 values)) (map (fun i => nth i p_low 0) (members q 1 values)) (nth 0 a 0)) /\
    (normalize = true -> centred q values a).

(** The same for a model with one estimator per observation, unweighted and centred. *)
Definition is_global_ale (store : R -> R) {est} (predict_est : est -> matrix R -> result (list R))
           (X : matrix R) (es : list (option est)) (f : nat) (q a : list R) : Prop :=
  let values := feature_values X f in
  proper_grid 1 values q /\ List.length a = List.length q /\ List.length es = List.length X /\
  exists low high d,
    moved store X f q 1 low /\ moved store X f q 0 high /\
    (forall i, (i < List.length X)%nat -> exists e p, nth_error es i = Some (Some e) /\
       predict_est e [nth i low []; nth i high []] = Ok p /\ (2 <= List.length p)%nat /\ nth i d 0 = nth 1 p 0 - nth 0 p 0) /\
    (forall k, (1 <= k < List.length q)%nat ->
       (nth k a 0 - nth (k - 1) a 0) * INR (bin_count q k values) = Rsum (map (fun i => nth i d 0) (members q k values))) /\
    centred q values a.
