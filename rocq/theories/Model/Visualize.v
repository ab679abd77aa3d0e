(** Computations behind the plots: /repo/georegression/visualize/.  Drawing itself
    (matplotlib, plotly) and the UMAP/HDBSCAN embedding are not modelled. *)
From Verif.Model Require Import Base Ext Sort Csr Neighbour Distance WeightModel Ale.
Open Scope string_scope.
Open Scope nat_scope.
Open Scope R_scope.

(** Mask [labels == v], and [np.where(labels == v)[0]]. *)
Definition label_mask (labels : list R) (v : R) : list bool := map (fun x => Reqb x v) labels.
Definition members (labels : list R) (v : R) : list nat := nonzero (label_mask labels v).

(** [sample_size]: an int is a count, a float a rate. *)
Inductive size_arg : Type := SizeInt (k : Z) | SizeFloat (r : R).

Section Sampling.
  (** NumPy's global generator and [np.random.choice(a, size, replace=False)]. *)
  Variable G : Type.
  Variable choice : G -> list nat -> nat -> G * list nat.
  (** Rounding of the virtual index by [np.quantile(..., interpolation='nearest')]. *)
  Variable nearest : R -> nat.

  (** pd.py:62-64: [np.clip(np.ceil(sizes * sample_size / N), 1, sizes)]. *)
  Definition cluster_sample_size (N : nat) (sample_size : Z) (size : nat) : Z :=
    Z.min (Z.max (Rceil (INR size * IZR sample_size / INR N)) 1) (Z.of_nat size).

  (** pd.py:66-70: one draw per cluster value, in increasing order. *)
  Fixpoint draw_clusters (g : G) (N : nat) (sample_size : Z) (labels values : list R) : result (G * list nat) :=
    match values with
    | [] => Ok (g, [])
    | v :: vs =>
      let ms := members labels v in
      d <- draw G choice g ms (cluster_sample_size N sample_size (List.length ms)) ;;
      r <- draw_clusters (fst d) N sample_size labels vs ;;
      Ok (fst r, (snd d ++ snd r)%list)
    end.

  Definition mean (l : list R) : R := Rsum l / INR (List.length l).

  (** pd.py:84-87: first index holding the value. *)
  Definition first_index (l : list R) (v : R) : result nat :=
    match members l v with [] => Raise IndexError | i :: _ => Ok i end.

  (** pd.py:27-90 [sample_partial].  Of [partial] only the y-values of each line are
      read.  [seed] is the generator state set by [np.random.seed(random_state)],
      [None] for random_state=None.  Labels for zero lines are not modelled
      (division by N = 0); an empty y-list has mean NaN, which no index matches. *)
  Definition sample_partial (seed : option G) (g0 : G) (ys : list (list R)) (sample_size : option size_arg)
      (quantile : option (list R)) (labels : option (list R)) : result (G * list nat) :=
    let g := match seed with Some s => s | None => g0 end in
    let N := List.length ys in
    match sample_size, quantile with
    | None, None => Raise (PyException "No selection method is chosen.")
    | Some _, Some _ => Raise (PyException "Only one selection method is allowed.")
    | Some s, None =>
      let k := match s with SizeInt k => k | SizeFloat r => trunc (r * INR N) end in
      match labels with
      | Some labels =>
        if (N =? 0)%nat then Raise ValueError
        else
          match labels with
          | [] => Raise ValueError                          (* np.concatenate([]) *)
          | _ => draw_clusters g N k labels (unique labels)
          end
      | None => draw G choice g (seq 0 N) k
      end
    | None, Some qs =>
      if (N =? 0)%nat then Raise ValueError                 (* np.vectorize on size 0 *)
      else if existsb (fun q => Rltb q 0 || Rltb 1 q) qs then Raise ValueError
      else
        let averages := map mean ys in
        if existsb (fun y => (List.length y =? 0)%nat) ys then
          match qs with [] => Ok (g, []) | _ => Raise IndexError end
        else
          idx <- mapM (fun q => first_index averages (nth (nearest (INR (N - 1) * q)) (sortR averages) 0)) qs ;;
          Ok (g, idx)
    end.
End Sampling.

(** ** distances between lines: pd.py:412-471 *)
Definition line := (list R * list R)%type.

(** [np.interp(x, xs, ys)] for increasing [xs], at least one point. *)
Fixpoint interp (xs ys : list R) (x : R) : R :=
  match xs, ys with
  | x0 :: xs', y0 :: ys' =>
    match xs', ys' with
    | x1 :: _, y1 :: _ =>
      if Rleb x x0 then y0
      else if Rltb x x1 then y0 + (y1 - y0) / (x1 - x0) * (x - x0)
      else interp xs' ys' x
    | _, _ => y0
    end
  | _, _ => 0
  end.

(** pd.py:434-435. *)
Definition overlap_start (x1 x2 : list R) : R := Rmax (hd 0 x1) (hd 0 x2).
Definition overlap_end (x1 x2 : list R) : R := Rmin (last x1 0) (last x2 0).

(** pd.py:442-443. *)
Definition x_merge (x1 x2 : list R) : list R :=
  filter (fun x => Rleb (overlap_start x1 x2) x && Rleb x (overlap_end x1 x2)) (unique (x1 ++ x2)%list).

(** pd.py:454-457, before the normalisation. *)
Definition point_weights (xs : list R) : list R :=
  let n := List.length xs in
  tabulate n (fun i =>
    if (i =? n - 1)%nat then (nth i xs 0 - nth (i - 1) xs 0) * 2
    else if (i =? 0)%nat then (nth 1 xs 0 - nth 0 xs 0) * 2
    else nth (i + 1) xs 0 - nth (i - 1) xs 0).

(** pd.py:431-460, one pair of lines; [None] is infinity.  Sums of weights are never
    zero here (see the proofs), so NumPy's division by zero is not modelled. *)
Definition line_distance (l1 l2 : line) : result (option R) :=
  let (x1, y1) := l1 in
  let (x2, y2) := l2 in
  match x1, x2 with
  | [], _ | _, [] => Raise IndexError
  | _, _ =>
    if Rleb (overlap_end x1 x2) (overlap_start x1 x2) then Ok None
    else if negb (List.length x1 =? List.length y1)%nat || negb (List.length x2 =? List.length y2)%nat then Raise ValueError
    else
      let xm := x_merge x1 x2 in
      let diff := map2 Rminus (map (interp x1 y1) xm) (map (interp x2 y2) xm) in
      let intercept := - Rsum diff / INR (List.length xm) in
      let pointwise := map (fun d => (d + intercept) * (d + intercept)) diff in
      let w := point_weights xm in
      let w' := map (fun v => v / Rsum w) w in
      Ok (Some (Rsum (map2 Rmult pointwise w') / Rsum w'))
  end.

(** Maximum of the finite entries, [None] if there are none. *)
Fixpoint max_finite (l : list (option R)) : option R :=
  match l with
  | [] => None
  | o :: l' =>
    match o, max_finite l' with
    | Some a, Some b => Some (Rmax a b)
    | Some a, None => Some a
    | None, r => r
    end
  end.

(** pd.py:427-462: row [i] holds zeros before column [i], then the distances. *)
Fixpoint upper_rows (i : nat) (ls : list line) : result (list (list (option R))) :=
  match ls with
  | [] => Ok []
  | l :: ls' =>
    row <- mapM (line_distance l) ls ;;
    rows <- upper_rows (S i) ls' ;;
    Ok ((repeat (Some 0) i ++ row)%list :: rows)
  end.

(** pd.py:412-471 [partial_distance]. *)
Definition partial_distance (ls : list line) : result (matrix R) :=
  m <- upper_rows 0 ls ;;
  match max_finite (List.concat m) with
  | None => Raise ValueError                                 (* max of nothing *)
  | Some top =>
    let filled := mmap (fun o => match o with Some d => d | None => top * 2 end) m in
    Ok (map2 (map2 Rplus) filled (transpose 0 (List.length ls) filled))
  end.

(** pd.py:474-495 [features_partial_distance]: one matrix per feature, in order. *)
Definition features_partial_distance (fs : list (list line)) : result (list (matrix R)) := mapM partial_distance fs.

(** ** pd.py:641-663 [choose_cluster_typical] *)

(** [np.argmin]: first position of the minimum. *)
Fixpoint argmin_from (k best : nat) (bv : R) (l : list R) : nat :=
  match l with
  | [] => best
  | x :: xs => if Rltb x bv then argmin_from (S k) k x xs else argmin_from (S k) best bv xs
  end.
Definition argmin (l : list R) : result nat :=
  match l with [] => Raise ValueError | x :: xs => Ok (argmin_from 1 0 x xs) end.

Definition choose_cluster_typical (embedding : matrix R) (cluster_vector : list R) : result (list nat) :=
  mapM (fun c =>
      let ms := members cluster_vector c in
      pts <- take_checked embedding ms ;;
      k <- argmin (map (fun p => Rsum (map (euclid p) pts)) pts) ;;
      getitem ms k)
    (unique cluster_vector).

(** ** utils.py *)
Definition vmin (l : list R) : result R := match l with [] => Raise ValueError | x :: xs => Ok (fold_left Rmin xs x) end.
Definition vmax (l : list R) : result R := match l with [] => Raise ValueError | x :: xs => Ok (fold_left Rmax xs x) end.

(** utils.py:28-29, the normalisation in [vector_to_color]. *)
Definition vector_normed (v : list R) : result (list ext) :=
  lo <- vmin v ;; hi <- vmax v ;; Ok (map (fun x => ediv (Fin (x - lo)) (Fin (hi - lo))) v).

(** utils.py:6-13 [color_to_str], the four integers of one colour. *)
Definition color_ints (color : list R) : list Z := map (fun c => trunc (c * 255)) color.

(** utils.py:36-46 [range_margin]. *)
Definition range_margin (vector : option (list R)) (value_min value_max : option R) (margin : R) : result (R * R) :=
  match vector, value_min, value_max with
  | Some v, _, _ => lo <- vmin v ;; hi <- vmax v ;; Ok (lo - (hi - lo) * margin, hi + (hi - lo) * margin)
  | None, Some lo, Some hi => Ok (lo - (hi - lo) * margin, hi + (hi - lo) * margin)
  | None, _, _ => Raise (PyException "Invalid parameter")
  end.

(** ** scatter.py:42-70: traces of a cluster plot.  For each cluster value the points
    drawn, and the indices shown when hovering over them ([customdata], whose k-th
    entry belongs to the k-th point of the trace). *)
Definition cluster_traces (value : list R) : list (R * list nat * list nat) :=
  map (fun c => (c, members value c, seq 0 (List.length value))) (unique value).
(** pd.py:688-707: the same in [embedding_plot], where [customdata] is masked too. *)
Definition embedding_traces (value : list R) : list (R * list nat * list nat) :=
  map (fun c => (c, members value c, take 0%nat (seq 0 (List.length value)) (members value c))) (unique value).

(** pd.py:289-294: a trace gets a legend entry iff it is the first of its cluster. *)
Definition show_vector (labels : list R) : list bool :=
  map (fun i => match members labels (nth i labels 0) with j :: _ => (i =? j)%nat | [] => false end) (seq 0 (List.length labels)).

(** ** importance.py:28-33: order of the features; [np.argsort] is not stable, so any
    sorting permutation may be the result. *)
Definition sorted_importance {A} (d : A) (sort_index : list nat) (labels : list A) (importance : matrix R) : list A * matrix R :=
  (take d labels sort_index, take [] importance sort_index).

(** scatter.py:121-128: aspect ratio (x, y, z) from the coordinate intervals and the
    number of time slices. *)
Definition scatter_aspect (xi yi : R) (slices : nat) : ext * ext * ext :=
  if Rltb xi yi then
    let a := ediv (Fin yi) (Fin xi) in (Fin 1, a, emul (emul a (Fin (INR slices))) (Fin (6 / 10)))
  else
    let a := ediv (Fin xi) (Fin yi) in (a, Fin 1, emul (emul a (Fin (INR slices))) (Fin (6 / 10))).

(** pd.py:171-190: line style (opacity or width) of every observation in
    [partial_plot_2d], from the size of its cluster.  [lo, hi] is the style range;
    [scale_power] is a real, 0 ** 0 does not occur. *)
Definition style_ratio (use_sigmoid : bool) (scale_power : R) (N c : nat) : R :=
  let r := INR c / INR N in
  let r' := if use_sigmoid then 1 / (1 + exp (- ((r - 1 / 2) * 10))) else r in
  Rpower r' scale_power.

Fixpoint lookup_label (v : R) (l : list (R * R)) : option R :=
  match l with [] => None | (k, r) :: l' => if Reqb k v then Some r else lookup_label v l' end.

Definition style_vector (use_sigmoid : bool) (scale_power lo hi : R) (labels : list R) : result (list R) :=
  let values := unique labels in
  let counts := map (fun v => List.length (members labels v)) values in
  match counts with
  | [] => Raise ValueError                                   (* np.max of nothing *)
  | c :: cs =>
    let ratios := if (fold_left Nat.max cs c =? fold_left Nat.min cs c)%nat then map (fun _ => 1) values
                  else map (style_ratio use_sigmoid scale_power (List.length labels)) counts in
    Ok (map (fun v => match lookup_label v (combine values ratios) with Some r => lo + (hi - lo) * r | None => 0 end) labels)
  end.
